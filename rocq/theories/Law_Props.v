(** What the likelihoods are densities of (C112). *)
From Coq Require Import Reals Lra Psatz String List Arith Lia Bool.
From Coquelicot Require Import Coquelicot.
From Verif Require Import Base Num Sums Sim_Model Sim_Spec Sim_Proofs Sim_Props Sim_Fit_Proofs Sim_Fit_Props Gauss.
Import ListNotations.
Open Scope R_scope.

(** ** Specification *)
(** the prices x0, y, one after the other *)
Definition two_prices (x0 y : R) : sdata := DNp2 (farr 2 1 (fun t _ => nth t [x0; y] 0)).
(** the simulation [r] of one path with one step ends in y *)
Definition ends_in (r : res output) (y : R) : Prop := exists a, r = Ok (ONp a) /\ nrow a = 2%nat /\ ncol a = 1%nat /\ at2 a 1 0 = Fin y.
(** [step z] has the density [dens] on the values in [D], if z is standard normal ([phi] of Gauss.v is the standard normal density, proved there to have integral 1): for all lo <= hi in D the numbers z with lo <= step z <= hi
    are those of an interval, and its probability is the integral of [dens] from lo to hi *)
Definition has_density (D : R -> Prop) (step dens : R -> R) : Prop :=
  forall lo hi, D lo -> D hi -> lo <= hi -> exists za zb p, (forall z, za <= z <= zb <-> lo <= step z <= hi) /\ is_RInt phi za zb p /\ is_RInt dens lo hi p.

(** ** Proofs *)
Ltac real := match goal with |- @eq _ ?a ?b => change (@eq R a b) end.
Lemma pdf_derive : forall mu var y : R, 0 < var -> is_derive (fun y => Phi0 ((y - mu) / sqrt var)) y (normal_pdf mu var y).
Proof.
  intros mu var y H. pose proof (sqrt_lt_R0 var H) as Hs. pose proof root_pos as Hr. pose proof PI_RGT_0. unfold normal_pdf.
  replace (exp (- ((y - mu) ^ 2 / (2 * var))) / sqrt (2 * PI * var)) with (scal (/ sqrt var) (phi ((y - mu) / sqrt var))).
  - apply (is_derive_comp Phi0 (fun y => (y - mu) / sqrt var)); [apply Phi0_derive|]. auto_derive; [lra|real; field; lra].
  - real. unfold scal; cbn -[pow]; unfold mult; cbn -[pow]. unfold phi. rewrite (sqrt_mult (2 * PI) var) by lra. replace (((y - mu) / sqrt var) ^ 2 / 2) with ((y - mu) ^ 2 / (2 * var)); [field; lra|].
    replace var with (sqrt var ^ 2) at 1 by (rewrite pow2_sqrt; lra). field. lra.
Qed.
Lemma pdf_cont : forall mu var y, 0 < var -> continuous (normal_pdf mu var) y.
Proof. intros mu var y H. pose proof PI_RGT_0. apply (ex_derive_continuous (normal_pdf mu var)). unfold normal_pdf. assert (0 < sqrt (2 * PI * var)) by (apply sqrt_lt_R0; nra). auto_derive. lra. Qed.
Lemma pdf_int : forall mu var lo hi, 0 < var -> is_RInt (normal_pdf mu var) lo hi (Phi0 ((hi - mu) / sqrt var) - Phi0 ((lo - mu) / sqrt var)).
Proof. intros mu var lo hi H. apply (is_RInt_derive (fun y => Phi0 ((y - mu) / sqrt var)) (normal_pdf mu var)); intros; [apply pdf_derive|apply pdf_cont]; auto. Qed.
Lemma affine_right : forall a b, 0 < a -> filterlim (fun y => (y - b) / a) (Rbar_locally p_infty) (Rbar_locally p_infty).
Proof. intros a b H P [M HM]. exists (M * a + b). intros y Hy. apply HM. apply Rmult_lt_reg_r with a; auto. unfold Rdiv. rewrite Rmult_assoc, Rinv_l by lra. lra. Qed.
Lemma affine_left : forall a b, 0 < a -> filterlim (fun y => (y - b) / a) (Rbar_locally m_infty) (Rbar_locally m_infty).
Proof. intros a b H P [M HM]. exists (M * a + b). intros y Hy. apply HM. apply Rmult_lt_reg_r with a; auto. unfold Rdiv. rewrite Rmult_assoc, Rinv_l by lra. lra. Qed.
Lemma pdf_total : forall mu var, 0 < var -> is_RInt_gen (normal_pdf mu var) (Rbar_locally m_infty) (Rbar_locally p_infty) 1.
Proof.
  intros mu var H. pose proof (sqrt_lt_R0 var H). replace 1 with (1 / 2 - - (1 / 2)) by field. apply (improper_line (fun y => Phi0 ((y - mu) / sqrt var))).
  - intros; now apply pdf_derive.
  - intros; now apply pdf_cont.
  - eapply filterlim_comp; [apply affine_left; auto|apply Phi0_left].
  - eapply filterlim_comp; [apply affine_right; auto|apply Phi0_right].
Qed.
Lemma pdf_pos : forall mu var y, 0 < var -> 0 < normal_pdf mu var y.
Proof. intros mu var y H. pose proof PI_RGT_0. unfold normal_pdf. apply Rdiv_lt_0_compat; [apply exp_pos|apply sqrt_lt_R0; nra]. Qed.
Lemma normal_step : forall (step dens : R -> R) mu var, 0 < var -> (forall z, step z = mu + sqrt var * z) -> (forall y, dens y = normal_pdf mu var y) ->
  has_density (fun _ => True) step dens /\ is_RInt_gen dens (Rbar_locally m_infty) (Rbar_locally p_infty) 1.
Proof.
  intros step dens mu var H Hs Hd. pose proof (sqrt_lt_R0 var H) as Q. split.
  - intros lo hi _ _ Hl. exists ((lo - mu) / sqrt var), ((hi - mu) / sqrt var), (Phi0 ((hi - mu) / sqrt var) - Phi0 ((lo - mu) / sqrt var)). split; [|split].
    + intros z. rewrite Hs. assert (A : forall b, z * sqrt var <= b - mu <-> z <= (b - mu) / sqrt var).
      { intros b. split; intros E; [apply Rmult_le_reg_r with (sqrt var); auto; unfold Rdiv; rewrite Rmult_assoc, Rinv_l by lra; lra|].
        apply Rmult_le_compat_r with (r := sqrt var) in E; [|lra]. unfold Rdiv in E. rewrite Rmult_assoc, Rinv_l in E by lra. lra. }
      assert (B : forall b, b - mu <= z * sqrt var <-> (b - mu) / sqrt var <= z).
      { intros b. split; intros E; [apply Rmult_le_reg_r with (sqrt var); auto; unfold Rdiv; rewrite Rmult_assoc, Rinv_l by lra; lra|].
        apply Rmult_le_compat_r with (r := sqrt var) in E; [|lra]. unfold Rdiv in E. rewrite Rmult_assoc, Rinv_l in E by lra. lra. }
      pose proof (A hi). pose proof (B lo). split; intros [E1 E2]; split; try (apply H1; lra); try (apply H0; lra); [apply H1 in E1; lra|apply H0 in E2; lra].
    + apply phi_int.
    + apply (is_RInt_ext (normal_pdf mu var)); [intros; symmetry; apply Hd|]. now apply pdf_int.
  - apply (is_RInt_gen_ext (normal_pdf mu var)); [|now apply pdf_total]. apply (Filter_prod _ _ _ (fun _ => True) (fun _ => True)); try apply filter_true. intros; symmetry; apply Hd.
Qed.
Lemma one_step_nll : forall mu var f, normal_nll 1 1 (fun _ => mu) (fun _ => var) f = - ln (normal_pdf mu var (f 0%nat 0%nat)).
Proof. intros. unfold normal_nll. cbn. lra. Qed.

(** ** BM *)
Theorem C112_bm : forall infer chol mvn d s x0 dt, 0 < s -> 0 < dt -> exists o step L,
  bm_new chol (DNp1 [Fin d]) (DNp1 [Fin s]) None = Ok o /\
  (forall z, ends_in (bm_path_sample o (fnoise z) (X0Data (DNp1 [Fin x0])) (Some (Fin dt)) 1 1 None None None true) (step (z 0%nat))) /\
  (forall y, snd (nll infer (bm_nll_np mvn) o (two_prices x0 y) (Some (Fin dt))) = Ok (Fin (L y))) /\
  has_density (fun _ => True) step (fun y => exp (- L y)) /\ is_RInt_gen (fun y => exp (- L y)) (Rbar_locally m_infty) (Rbar_locally p_infty) 1.
Proof.
  intros infer chol mvn d s x0 dt Hs Hdt. assert (Hv : 0 < s ^ 2 * dt) by (apply Rmult_lt_0_compat; [apply pow_lt|]; auto). pose proof (sqrt_lt_R0 dt Hdt).
  exists (mkObj (mkBM [Fin d] [Fin s] None None) (bm_num_parameters (mkBM [Fin d] [Fin s] None None)) unfitted), (fun z => (x0 + d * dt) + sqrt (s ^ 2 * dt) * z), (fun y => - ln (normal_pdf (d * dt) (s ^ 2 * dt) (y - x0))).
  split; [reflexivity|]. split; [|split].
  - intros z. destruct (C20_bm_increments chol [d] [s] None None [x0] dt z 1 1 ltac:(cbn; lia) ltac:(left; reflexivity) I ltac:(discriminate) ltac:(exists 1%nat; reflexivity) Hdt) as (o & a & Ho & Ha & Hr & Hc & Hi).
    change (Ok (mkObj (mkBM [Fin d] [Fin s] None None) (bm_num_parameters (mkBM [Fin d] [Fin s] None None)) unfitted) = Ok o) in Ho. injection Ho as <-.
    pose proof (C19_bm_starts_at_x0 _ _ (DNp1 [Fin x0]) _ _ _ _ _ _ _ _ eq_refl Ha 0%nat) as Hst. cbn [out_cols out_at] in Hst. rewrite Hc in Hst. specialize (Hst ltac:(cbn; lia)).
    exists a. split; [exact Ha|]. split; [exact Hr|]. split; [exact Hc|]. destruct (Hi 0%nat 0%nat 0%nat ltac:(lia) ltac:(lia) ltac:(cbn; lia)) as (x & y & Ex & Ey & E). cbn [length Nat.mul Nat.add nth pget Nat.eqb shock draw] in *.
    assert (x = x0) by (rewrite Ex in Hst; cbn in Hst; injection Hst; auto). subst x. rewrite Ey. f_equal. rewrite sqrt_mult, sqrt_pow2 by (try apply pow2_ge_0; lra). change (draw 1 1 z 0 0 0) with (z 0%nat) in E. lra.
  - intros y. pose proof (C26_bm_nll infer mvn [d] [s] (bm_num_parameters (mkBM [Fin d] [Fin s] None None)) unfitted (fun t _ => nth t [x0; y] 0) 1 dt ltac:(cbn; lia) ltac:(left; reflexivity) ltac:(intros q [<-|[]]; auto) Hdt) as E.
    etransitivity; [exact E|]. do 2 f_equal. change (normal_nll 1 1 (fun v => nth v [d] 0 * dt) (fun v => pget [s] v ^ 2 * dt) (incr (fun t _ => nth t [x0; y] 0)) = - ln (normal_pdf (d * dt) (s ^ 2 * dt) (y - x0))).
    unfold normal_nll. cbn -[pow normal_pdf]. rewrite !Rplus_0_r. reflexivity.
  - apply (normal_step _ _ (x0 + d * dt) (s ^ 2 * dt) Hv); [reflexivity|]. intros y. rewrite Ropp_involutive, exp_ln by (apply pdf_pos; auto). unfold normal_pdf. do 4 f_equal. ring.
Qed.
Print Assumptions C112_bm.

(** ** OU *)
Theorem C112_ou : forall infer chol mvn m k s x0 dt, 0 < k -> 0 < s -> 0 < dt -> exists o step L,
  ou_new chol (DNp1 [Fin m]) (DNp1 [Fin k]) (DNp1 [Fin s]) None = Ok o /\
  (forall z, ends_in (ou_path_sample o (fnoise z) (X0Data (DNp1 [Fin x0])) (Some (Fin dt)) 1 1 None None None true) (step (z 0%nat))) /\
  (forall y, snd (nll infer (ou_nll_np mvn) o (two_prices x0 y) (Some (Fin dt))) = Ok (Fin (L y))) /\
  has_density (fun _ => True) step (fun y => exp (- L y)) /\ is_RInt_gen (fun y => exp (- L y)) (Rbar_locally m_infty) (Rbar_locally p_infty) 1.
Proof.
  intros infer chol mvn m k s x0 dt Hk Hs Hdt. set (var := s ^ 2 * (1 - exp (- (2 * k * dt))) / (2 * k)).
  assert (Hv : 0 < var). { assert (exp (- (2 * k * dt)) < exp 0) by (apply exp_increasing; nra). rewrite exp_0 in *. apply Rdiv_lt_0_compat; [|lra]. apply Rmult_lt_0_compat; [apply pow_lt; auto|lra]. }
  set (mu := m + (x0 - m) * exp (- (k * dt))). set (o := mkObj (mkOU (Row [Fin m]) (Row [Fin k]) (Row [Fin s]) None None) (ou_num_parameters (mkOU (Row [Fin m]) (Row [Fin k]) (Row [Fin s]) None None)) unfitted).
  exists o, (fun z => mu + sqrt var * z), (fun y => - ln (normal_pdf 0 var (y - mu))). split; [reflexivity|]. split; [|split].
  - intros z. destruct (C22_ou_exact_step chol [m] [k] [s] None None [x0] dt z 1 1 ltac:(cbn; lia) ltac:(left; reflexivity) ltac:(left; reflexivity) ltac:(left; reflexivity) ltac:(intros q [<-|[]]; auto) I ltac:(discriminate) ltac:(exists 1%nat; reflexivity) Hdt) as (o' & a & Ho & Ha & Hr & Hc & Hi).
    change (Ok o = Ok o') in Ho. injection Ho as <-. exists a. split; [exact Ha|]. split; [exact Hr|]. split; [exact Hc|].
    destruct (Hi 0%nat 0%nat ltac:(lia) ltac:(cbn; lia)) as (H0 & H1 & _). destruct (H1 0%nat ltac:(lia)) as (x & y & q & Ex & Ey & E & Q0 & Q). cbn [length Nat.mul Nat.add nth pget Nat.eqb shock Nat.modulo] in *.
    assert (x = x0) by (rewrite Ex in H0; cbn in H0; injection H0; auto). subst x. rewrite Ey. f_equal. change (draw 1 1 z 0 0 0) with (z 0%nat) in E.
    assert (q = sqrt var). { symmetry. apply sqrt_lem_1; [lra|auto|]. replace (q * q) with (q ^ 2) by ring. exact Q. } subst q. exact E.
  - intros y. pose proof (C26_ou_nll infer mvn [m] [k] [s] (ou_num_parameters (mkOU (Row [Fin m]) (Row [Fin k]) (Row [Fin s]) None None)) unfitted (fun t _ => nth t [x0; y] 0) 1 dt ltac:(cbn; lia) ltac:(left; reflexivity) ltac:(left; reflexivity) ltac:(intros q [<-|[]]; auto) ltac:(intros q [<-|[]]; auto) Hdt) as E.
    etransitivity; [exact E|]. do 2 f_equal. unfold normal_nll. cbn -[pow normal_pdf]. rewrite !Rplus_0_r. reflexivity.
  - apply (normal_step _ _ mu var Hv); [reflexivity|]. intros y. rewrite Ropp_involutive, exp_ln by (apply pdf_pos; auto). unfold normal_pdf. do 4 f_equal. ring.
Qed.
Print Assumptions C112_ou.

(** ** GBM: the likelihood is that of the log return; as a function of the price it does not have integral 1, and its mean lacks the factor dt. *)
Definition positive (y : R) : Prop := 0 < y.
Lemma log_step : forall (step dens : R -> R) x0 a mu var, 0 < x0 -> 0 < var -> (forall z, step z = x0 * exp (a + sqrt var * z)) -> (forall y, 0 < y -> dens y = normal_pdf mu var (ln (y / x0)) / y) ->
  (has_density positive step dens <-> a = mu).
Proof.
  intros step dens x0 a mu var Hx H Hs Hd. pose proof (sqrt_lt_R0 var H) as Q.
  set (u := fun b y => (ln (y / x0) - b) / sqrt var).
  assert (St : forall lo hi z, 0 < lo -> 0 < hi -> (lo <= step z <= hi <-> u a lo <= z <= u a hi)).
  { intros lo hi z Hl Hh. rewrite Hs. assert (A : forall b, 0 < b -> (x0 * exp (a + sqrt var * z) <= b <-> z <= u a b) /\ (b <= x0 * exp (a + sqrt var * z) <-> u a b <= z)).
    { intros b Hb. assert (Hb' : 0 < b / x0) by (apply Rdiv_lt_0_compat; auto). assert (E : b = x0 * exp (a + sqrt var * u a b)).
      { unfold u. replace (a + sqrt var * ((ln (b / x0) - a) / sqrt var)) with (ln (b / x0)) by (field; lra). rewrite exp_ln by auto. field. lra. }
      assert (Mo : forall p q, p <= q -> x0 * exp (a + sqrt var * p) <= x0 * exp (a + sqrt var * q)). { intros p q [L|L]; [|subst; lra]. apply Rmult_le_compat_l; [lra|]. left. apply exp_increasing. nra. }
      assert (Ms : forall p q, p < q -> x0 * exp (a + sqrt var * p) < x0 * exp (a + sqrt var * q)). { intros p q L. apply Rmult_lt_compat_l; [lra|]. apply exp_increasing. nra. }
      split; split; intros L.
      - apply Rnot_lt_le. intros C. apply Ms in C. rewrite <- E in C. lra.
      - apply Mo in L. rewrite <- E in L. lra.
      - apply Rnot_lt_le. intros C. apply Ms in C. rewrite <- E in C. lra.
      - apply Mo in L. rewrite <- E in L. lra. }
    destruct (A lo Hl) as [_ A1]. destruct (A hi Hh) as [A2 _]. tauto. }
  assert (Dr : forall y, 0 < y -> is_derive (fun y => Phi0 (u mu y)) y (dens y)).
  { intros y Hy. rewrite Hd by auto. assert (0 < y / x0) by (apply Rdiv_lt_0_compat; auto). replace (normal_pdf mu var (ln (y / x0)) / y) with (scal (/ y) (normal_pdf mu var (ln (y / x0)))) by (real; unfold scal; cbn -[normal_pdf]; unfold mult; cbn -[normal_pdf]; apply Rmult_comm).
    unfold u. apply (is_derive_comp (fun w => Phi0 ((w - mu) / sqrt var)) (fun y => ln (y / x0))); [apply pdf_derive; auto|]. auto_derive; [auto|]. real. unfold Rdiv. field. lra. }
  assert (In : forall lo hi, 0 < lo -> lo <= hi -> is_RInt dens lo hi (Phi0 (u mu hi) - Phi0 (u mu lo))).
  { intros lo hi Hl Hh. apply (is_RInt_ext (fun y => normal_pdf mu var (ln (y / x0)) / y)); [intros y Hy; rewrite Rmin_left in Hy by auto; symmetry; apply Hd; lra|].
    apply (is_RInt_derive (fun y => Phi0 (u mu y)) (fun y => normal_pdf mu var (ln (y / x0)) / y)); intros y Hy; rewrite Rmin_left in Hy by auto.
    - rewrite <- Hd by lra. apply Dr. lra.
    - assert (0 < y / x0) by (apply Rdiv_lt_0_compat; lra). apply (ex_derive_continuous (fun y => normal_pdf mu var (ln (y / x0)) / y)). unfold normal_pdf. pose proof PI_RGT_0. assert (0 < sqrt (2 * PI * var)) by (apply sqrt_lt_R0; nra). auto_derive. repeat split; auto; lra. }
  split.
  - intros HD. destruct (Req_dec a mu) as [E|E]; [exact E|exfalso]. set (c := (a - mu) / sqrt var). assert (Hc : c <> 0) by (unfold c, Rdiv; apply Rmult_integral_contrapositive_currified; [lra|apply Rinv_neq_0_compat; lra]).
    assert (Uu : forall y, u mu y = u a y + c) by (intros y; unfold u, c; field; lra).
    assert (Sh : forall p q, p <= q -> Phi0 (q + c) - Phi0 (p + c) = Phi0 q - Phi0 p).
    { intros p q L. set (yp := x0 * exp (a + sqrt var * p)). set (yq := x0 * exp (a + sqrt var * q)). assert (Yp : 0 < yp) by (apply Rmult_lt_0_compat; [auto|apply exp_pos]).
      assert (Ya : forall w, u a (x0 * exp (a + sqrt var * w)) = w) by (intros w; unfold u; replace (x0 * exp (a + sqrt var * w) / x0) with (exp (a + sqrt var * w)) by (field; lra); rewrite ln_exp; field; lra).
      assert (Le : yp <= yq). { unfold yp, yq. apply Rmult_le_compat_l; [lra|]. destruct L as [L|L]; [left; apply exp_increasing; nra|subst; lra]. }
      destruct (HD yp yq Yp ltac:(unfold positive; lra) Le) as (za & zb & pr & HZ & I1 & I2). assert (Zq : za <= zb).
      { assert (za <= p <= zb) by (apply HZ, St; [auto|lra|]; unfold yp, yq; rewrite !Ya; lra). lra. }
      assert (Za : za = p). { assert (P1 : za <= p <= zb) by (apply HZ, St; [auto|lra|]; unfold yp, yq; rewrite !Ya; lra). assert (P2 : u a yp <= za <= u a yq) by (apply St; [auto|lra|]; apply HZ; lra). unfold yp, yq in P2. rewrite !Ya in P2. lra. }
      assert (Zb : zb = q). { assert (P1 : za <= q <= zb) by (apply HZ, St; [auto|lra|]; unfold yp, yq; rewrite !Ya; lra). assert (P2 : u a yp <= zb <= u a yq) by (apply St; [auto|lra|]; apply HZ; lra). unfold yp, yq in P2. rewrite !Ya in P2. lra. }
      subst za zb. pose proof (is_RInt_unique _ _ _ _ I1) as U1. rewrite (is_RInt_unique _ _ _ _ (phi_int p q)) in U1. pose proof (is_RInt_unique _ _ _ _ I2) as U2. rewrite (is_RInt_unique _ _ _ _ (In yp yq Yp Le)) in U2.
      rewrite !Uu in U2. unfold yp, yq in U2. rewrite !Ya in U2. lra. }
    assert (Dc : forall p q, 0 <= p -> p < q -> phi q < phi p). { intros p q P L. unfold phi. apply Rmult_lt_compat_r; [apply Rinv_0_lt_compat, root_pos|]. apply exp_increasing. nra. }
    assert (St2 : forall b, 0 < b -> Phi0 (b + b) - Phi0 b < Phi0 b - Phi0 0).
    { intros b Hb. destruct (MVT_cor2 Phi0 phi 0 b Hb ltac:(intros; apply is_derive_Reals, Phi0_derive)) as (x1 & E1 & L1). destruct (MVT_cor2 Phi0 phi b (b + b) ltac:(lra) ltac:(intros; apply is_derive_Reals, Phi0_derive)) as (x2 & E2 & L2).
      pose proof (Dc x1 x2 ltac:(lra) ltac:(lra)). nra. }
    assert (O0 : Phi0 0 = 0) by (pose proof (Phi0_odd 0) as O; rewrite Ropp_0 in O; lra).
    destruct (Rlt_dec 0 c) as [P|P].
    + pose proof (Sh 0 c ltac:(lra)) as S1. rewrite Rplus_0_l in S1. pose proof (St2 c P). lra.
    + pose proof (Sh c 0 ltac:(lra)) as S1. rewrite Rplus_0_l in S1. pose proof (St2 (- c) ltac:(lra)) as S2. replace (- c + - c) with (- (c + c)) in S2 by ring. rewrite !Phi0_odd in S2. lra.
  - intros <-. intros lo hi Hl Hh L. exists (u a lo), (u a hi), (Phi0 (u a hi) - Phi0 (u a lo)). split; [intros z; symmetry; apply St; auto|]. split; [apply phi_int|apply In; auto].
Qed.
Lemma near_zero : forall M, at_right 0 (fun y => ln y < M).
Proof. intros M. exists (mkposreal (exp M) (exp_pos M)). intros y Hy Hp. unfold ball in Hy. cbn in Hy. unfold AbsRing_ball, abs, minus, plus, opp in Hy. cbn in Hy. rewrite Ropp_0, Rplus_0_r in Hy. apply Rabs_def2 in Hy. rewrite <- (ln_exp M). apply ln_increasing; lra. Qed.
Lemma log_total : forall x0 mu var, 0 < x0 -> 0 < var ->
  is_RInt_gen (fun y => normal_pdf mu var (ln (y / x0))) (at_right 0) (Rbar_locally p_infty) (x0 * exp (mu + var / 2)).
Proof.
  intros x0 mu var Hx H. pose proof (sqrt_lt_R0 var H) as Q. pose proof PI_RGT_0 as HP. assert (QQ : sqrt var * sqrt var = var) by (apply sqrt_sqrt; lra). set (K := x0 * exp (mu + var / 2)).
  replace K with (K * (1 / 2) - K * (- (1 / 2))) by field.
  apply (improper_on (fun y => 0 < y) (fun y => K * Phi0 ((ln (y / x0) - (mu + var)) / sqrt var))).
  - typeclasses eauto.
  - typeclasses eauto.
  - intros x y z P1 P2. unfold Rmin. destruct (Rle_dec x y); lra.
  - intros x P. apply (open_gt 0 x P).
  - exists (mkposreal 1 Rlt_0_1). intros y _ P. exact P.
  - exists 0. auto.
  - intros y P. assert (Py : 0 < y / x0) by (apply Rdiv_lt_0_compat; auto).
    replace (normal_pdf mu var (ln (y / x0))) with (K * scal (/ y) (normal_pdf (mu + var) var (ln (y / x0)))).
    + apply is_derive_scal. apply (is_derive_comp (fun w => Phi0 ((w - (mu + var)) / sqrt var)) (fun y => ln (y / x0))); [apply pdf_derive; auto|]. auto_derive; [auto|]. real. unfold Rdiv. field. lra.
    + unfold scal; cbn -[normal_pdf]; unfold mult; cbn -[normal_pdf]. unfold normal_pdf, K. set (w := ln (y / x0)). assert (Ey : y = x0 * exp w) by (unfold w; rewrite exp_ln by auto; field; lra). rewrite Ey at 1.
      assert (R0 : 0 < sqrt (2 * PI * var)) by (apply sqrt_lt_R0; nra). pose proof (exp_pos w).
      transitivity ((exp (mu + var / 2) * exp (- ((w - (mu + var)) ^ 2 / (2 * var))) * exp (- w)) / sqrt (2 * PI * var)); [rewrite (exp_Ropp w); field; lra|]. f_equal. rewrite <- !exp_plus. f_equal. field. lra.
  - intros y P. assert (Py : 0 < y / x0) by (apply Rdiv_lt_0_compat; auto). apply (ex_derive_continuous (fun y => normal_pdf mu var (ln (y / x0)))). unfold normal_pdf. assert (0 < sqrt (2 * PI * var)) by (apply sqrt_lt_R0; nra). auto_derive. repeat split; auto; lra.
  - apply (filterlim_comp R R R (fun y => Phi0 ((ln (y / x0) - (mu + var)) / sqrt var)) (fun w => K * w) (at_right 0) (locally (- (1 / 2)))); [|apply (continuous_mult (fun _ => K) (fun w => w)); [apply continuous_const|apply continuous_id]].
    apply (filterlim_comp R R R (fun y => (ln (y / x0) - (mu + var)) / sqrt var) Phi0 (at_right 0) (Rbar_locally m_infty)); [|apply Phi0_left].
    apply (filterlim_comp R R R (fun y => ln (y / x0)) (fun w => (w - (mu + var)) / sqrt var) (at_right 0) (Rbar_locally m_infty)); [|apply affine_left; auto].
    intros P [M HM]. destruct (near_zero (M + ln x0)) as [e He]. exists e. intros y Hy Hp. apply HM. unfold Rdiv. rewrite ln_mult, ln_Rinv by (auto; apply Rinv_0_lt_compat; auto). pose proof (He y Hy Hp). cbn in *. lra.
  - apply (filterlim_comp R R R (fun y => Phi0 ((ln (y / x0) - (mu + var)) / sqrt var)) (fun w => K * w) (Rbar_locally p_infty) (locally (1 / 2))); [|apply (continuous_mult (fun _ => K) (fun w => w)); [apply continuous_const|apply continuous_id]].
    apply (filterlim_comp R R R (fun y => (ln (y / x0) - (mu + var)) / sqrt var) Phi0 (Rbar_locally p_infty) (Rbar_locally p_infty)); [|apply Phi0_right].
    apply (filterlim_comp R R R (fun y => ln (y / x0)) (fun w => (w - (mu + var)) / sqrt var) (Rbar_locally p_infty) (Rbar_locally p_infty)); [|apply affine_right; auto].
    intros P [M HM]. exists (x0 * exp M). intros y Hy. assert (0 < x0 * exp M) by (apply Rmult_lt_0_compat; [auto|apply exp_pos]). apply HM. rewrite <- (ln_exp M). apply ln_increasing; [apply exp_pos|]. apply Rmult_lt_reg_r with x0; auto. unfold Rdiv. rewrite Rmult_assoc, Rinv_l by lra. lra.
Qed.
Theorem C112_gbm : forall infer chol mvn d s x0 dt, 0 < s -> 0 < x0 -> 0 < dt -> exists o step L,
  bm_new chol (DNp1 [Fin d]) (DNp1 [Fin s]) None = Ok o /\
  (forall z, ends_in (gbm_path_sample o (fnoise z) (X0Data (DNp1 [Fin x0])) (Some (Fin dt)) 1 1 None None None true) (step (z 0%nat))) /\
  (forall y, 0 < y -> snd (nll infer (gbm_nll_np mvn) o (two_prices x0 y) (Some (Fin dt))) = Ok (Fin (L y))) /\
  (has_density positive step (fun y => exp (- L y) / y) <-> dt = 1 \/ d = s ^ 2 / 2) /\
  is_RInt_gen (fun y => exp (- L y)) (at_right 0) (Rbar_locally p_infty) (x0 * exp (d - s ^ 2 / 2 + s ^ 2 * dt / 2)).
Proof.
  intros infer chol mvn d s x0 dt Hs Hx Hdt. assert (Hv : 0 < s ^ 2 * dt) by (apply Rmult_lt_0_compat; [apply pow_lt|]; auto). pose proof (sqrt_lt_R0 dt Hdt). set (mu := d - s ^ 2 / 2).
  set (o := mkObj (mkBM [Fin d] [Fin s] None None) (bm_num_parameters (mkBM [Fin d] [Fin s] None None)) unfitted).
  exists o, (fun z => x0 * exp (mu * dt + sqrt (s ^ 2 * dt) * z)), (fun y => - ln (normal_pdf mu (s ^ 2 * dt) (ln (y / x0)))).
  split; [reflexivity|]. split; [|split; [|split]].
  - intros z. destruct (C21_gbm_paths chol [d] [s] None None [x0] dt z 1 1 ltac:(cbn; lia) ltac:(left; reflexivity) I ltac:(discriminate) ltac:(exists 1%nat; reflexivity) Hdt) as (o' & a & Ho & Ha & Hr & Hc & Hi).
    change (Ok o = Ok o') in Ho. injection Ho as <-. exists a. split; [exact Ha|]. split; [exact Hr|]. split; [exact Hc|].
    pose proof (C19_gbm_starts_at_positive_x0 _ _ (DNp1 [Fin x0]) [x0] _ _ _ _ _ _ _ eq_refl ltac:(intros e [<-|[]]; auto) Ha 0%nat) as Hst. cbn [out_cols out_at] in Hst. rewrite Hc in Hst. specialize (Hst ltac:(cbn; lia)).
    destruct (Hi 0%nat 0%nat 0%nat ltac:(lia) ltac:(lia) ltac:(cbn; lia)) as (H0 & _). destruct (H0 Hx) as (x & Ex & Px & H1). destruct (H1 ltac:(lia)) as (y & Ey & E). cbn [length Nat.mul Nat.add nth pget Nat.eqb shock Nat.modulo] in *.
    change (draw 1 1 z 0 0 0) with (z 0%nat) in E.
    assert (x = x0). { rewrite Ex in Hst. cbn in Hst. injection Hst. auto. } subst x. destruct (Hi 1%nat 0%nat 0%nat ltac:(lia) ltac:(lia) ltac:(cbn; lia)) as (H2 & _). destruct (H2 Hx) as (y' & Ey' & Py & _). cbn [length Nat.mul Nat.add] in Ey'. rewrite Ey in Ey'. injection Ey' as <-.
    rewrite Ey. f_equal. rewrite sqrt_mult, sqrt_pow2 by (try apply pow2_ge_0; lra). change ((d - s ^ 2 / 2) * dt) with (mu * dt) in E. rewrite <- E, exp_ln by (apply Rdiv_lt_0_compat; auto). field. lra.
  - intros y Hy. pose proof (C26_gbm_nll infer mvn [d] [s] (bm_num_parameters (mkBM [Fin d] [Fin s] None None)) unfitted (fun t _ => nth t [x0; y] 0) 1 dt ltac:(cbn; lia) ltac:(left; reflexivity) ltac:(intros q [<-|[]]; auto) Hdt) as E.
    etransitivity; [apply E|]; [intros [|[|t]] v Ht _; cbn; auto; lia|]. do 2 f_equal. unfold normal_nll. cbn -[pow normal_pdf]. rewrite !Rplus_0_r. unfold Rdiv at 2. rewrite ln_mult, ln_Rinv by (auto; apply Rinv_0_lt_compat; auto). reflexivity.
  - assert (LS : has_density positive (fun z => x0 * exp (mu * dt + sqrt (s ^ 2 * dt) * z)) (fun y => exp (- - ln (normal_pdf mu (s ^ 2 * dt) (ln (y / x0)))) / y) <-> mu * dt = mu).
    { apply (log_step _ _ x0 (mu * dt) mu (s ^ 2 * dt)); auto. intros y Hy. rewrite Ropp_involutive, exp_ln by (apply pdf_pos; auto). reflexivity. }
    rewrite LS. unfold mu. split; [intros E; assert ((d - s ^ 2 / 2) * (dt - 1) = 0) as E0 by lra; apply Rmult_integral in E0; destruct E0; [right|left]; lra|]. intros [-> | ->]; ring.
  - apply (is_RInt_gen_ext (fun y => normal_pdf mu (s ^ 2 * dt) (ln (y / x0)))); [|apply log_total; auto].
    apply (Filter_prod _ _ _ (fun _ => True) (fun _ => True)); try apply filter_true. intros x y _ _ w _. rewrite Ropp_involutive, exp_ln by (apply pdf_pos; auto). reflexivity.
Qed.
Print Assumptions C112_gbm.

(** ** Paths: the nll of a series is the sum of the nll of its steps. *)
Theorem C112_steps : forall infer mvn d m k s j st n x dt, 0 < s -> 0 < dt ->
  let bm := mkObj (mkBM [Fin d] [Fin s] None None) j st in let ou := mkObj (mkOU (Row [Fin m]) (Row [Fin k]) (Row [Fin s]) None None) j st in let series := DNp2 (farr (n + 1) 1 (fun t _ => x t)) in
  (exists L l, snd (nll infer (bm_nll_np mvn) bm series (Some (Fin dt))) = Ok (Fin L) /\ (forall t, snd (nll infer (bm_nll_np mvn) bm (two_prices (x t) (x (t + 1)%nat)) (Some (Fin dt))) = Ok (Fin (l t))) /\ L = rsum (map l (seq 0 n))) /\
  (0 < k -> exists L l, snd (nll infer (ou_nll_np mvn) ou series (Some (Fin dt))) = Ok (Fin L) /\ (forall t, snd (nll infer (ou_nll_np mvn) ou (two_prices (x t) (x (t + 1)%nat)) (Some (Fin dt))) = Ok (Fin (l t))) /\ L = rsum (map l (seq 0 n))) /\
  ((forall t, 0 < x t) -> exists L l, snd (nll infer (gbm_nll_np mvn) bm series (Some (Fin dt))) = Ok (Fin L) /\ (forall t, snd (nll infer (gbm_nll_np mvn) bm (two_prices (x t) (x (t + 1)%nat)) (Some (Fin dt))) = Ok (Fin (l t))) /\ L = rsum (map l (seq 0 n))).
Proof.
  intros infer mvn d m k s j st n x dt Hs Hdt bm ou series.
  assert (Op : forall l f g, (forall t : nat, f t = - g t) -> - rsum (map g l) = rsum (map f l)) by (intros l f g E; rewrite (rsum_ext _ f (fun t => -1 * g t)) by (intros; rewrite E; ring); rewrite rsum_scal; ring).
  split; [|split].
  - exists (normal_nll n 1 (fun v => nth v [d] 0 * dt) (fun v => pget [s] v ^ 2 * dt) (incr (fun t _ => x t))), (fun t => normal_nll 1 1 (fun v => nth v [d] 0 * dt) (fun v => pget [s] v ^ 2 * dt) (incr (fun i _ => nth i [x t; x (t + 1)%nat] 0))).
    split; [exact (C26_bm_nll infer mvn [d] [s] j st (fun t _ => x t) n dt ltac:(cbn; lia) ltac:(left; reflexivity) ltac:(intros q [<-|[]]; auto) Hdt)|].
    split; [intros t; exact (C26_bm_nll infer mvn [d] [s] j st (fun i _ => nth i [x t; x (t + 1)%nat] 0) 1 dt ltac:(cbn; lia) ltac:(left; reflexivity) ltac:(intros q [<-|[]]; auto) Hdt)|].
    unfold normal_nll at 1. apply Op. intros t. unfold normal_nll. cbn -[normal_pdf pow Nat.add]. rewrite !Rplus_0_r. reflexivity.
  - intros Hk. eexists. exists (fun t => normal_nll 1 1 (fun _ => 0) (fun v => pget [s] v ^ 2 * (1 - exp (- (2 * pget [k] v * dt))) / (2 * pget [k] v)) (fun _ v => x (t + 1)%nat - (nth v [m] 0 + (x t - nth v [m] 0) * exp (- (pget [k] v * dt))))).
    split; [exact (C26_ou_nll infer mvn [m] [k] [s] j st (fun t _ => x t) n dt ltac:(cbn; lia) ltac:(left; reflexivity) ltac:(left; reflexivity) ltac:(intros q [<-|[]]; auto) ltac:(intros q [<-|[]]; auto) Hdt)|].
    split; [intros t; etransitivity; [exact (C26_ou_nll infer mvn [m] [k] [s] j st (fun i _ => nth i [x t; x (t + 1)%nat] 0) 1 dt ltac:(cbn; lia) ltac:(left; reflexivity) ltac:(left; reflexivity) ltac:(intros q [<-|[]]; auto) ltac:(intros q [<-|[]]; auto) Hdt)|reflexivity]|].
    unfold normal_nll at 1. apply Op. intros t. unfold normal_nll. cbn -[normal_pdf pow Nat.add]. rewrite !Rplus_0_r. reflexivity.
  - intros Hx. eexists. exists (fun t => normal_nll 1 1 (fun v => nth v [d] 0 - pget [s] v ^ 2 / 2) (fun v => pget [s] v ^ 2 * dt) (fun _ _ => ln (x (t + 1)%nat) - ln (x t))).
    split; [exact (C26_gbm_nll infer mvn [d] [s] j st (fun t _ => x t) n dt ltac:(cbn; lia) ltac:(left; reflexivity) ltac:(intros q [<-|[]]; auto) Hdt (fun t _ _ _ => Hx t))|].
    split; [intros t; etransitivity; [exact (C26_gbm_nll infer mvn [d] [s] j st (fun i _ => nth i [x t; x (t + 1)%nat] 0) 1 dt ltac:(cbn; lia) ltac:(left; reflexivity) ltac:(intros q [<-|[]]; auto) Hdt ltac:(intros [|[|i]] v Hi _; cbn; auto; lia))|reflexivity]|].
    unfold normal_nll at 1. apply Op. intros t. unfold normal_nll. cbn -[normal_pdf pow Nat.add]. rewrite !Rplus_0_r. reflexivity.
Qed.
Print Assumptions C112_steps.

(** Daily data with drift 5 %, volatility 20 %: GBM's likelihood is not the density of the next price, nor of its simulated return. *)
Example C112_example : forall infer chol mvn, exists o step L,
  bm_new chol (DNp1 [Fin (1 / 20)]) (DNp1 [Fin (1 / 5)]) None = Ok o /\
  (forall z, ends_in (gbm_path_sample o (fnoise z) (X0Data (DNp1 [Fin 100])) (Some (Fin (1 / 252))) 1 1 None None None true) (step (z 0%nat))) /\
  (forall y, 0 < y -> snd (nll infer (gbm_nll_np mvn) o (two_prices 100 y) (Some (Fin (1 / 252)))) = Ok (Fin (L y))) /\
  ~ has_density positive step (fun y => exp (- L y) / y) /\ exists total, 100 < total /\ is_RInt_gen (fun y => exp (- L y)) (at_right 0) (Rbar_locally p_infty) total.
Proof.
  intros infer chol mvn. destruct (C112_gbm infer chol mvn (1 / 20) (1 / 5) 100 (1 / 252) ltac:(lra) ltac:(lra) ltac:(lra)) as (o & step & L & H1 & H2 & H3 & H4 & H5). exists o, step, L. repeat (split; [assumption|]).
  split; [rewrite H4; intros [E|E]; lra|]. eexists. split; [|exact H5]. assert (P : 0 < 1 / 20 - (1 / 5) ^ 2 / 2 + (1 / 5) ^ 2 * (1 / 252) / 2) by lra. apply exp_increasing in P. rewrite exp_0 in P. lra.
Qed.
