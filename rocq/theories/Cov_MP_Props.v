(** The Marchenko-Pastur density: total mass, mean and variance (C110). *)
From Coq Require Import Reals Lra Psatz String List Arith Lia Bool.
From Coquelicot Require Import Coquelicot.
From Verif Require Import Base Num Cov_Model Cov_Eig_Props.
Import ListNotations.
Open Scope R_scope.

Lemma is_derive_asin : forall x, -1 < x < 1 -> is_derive asin x (1 / sqrt (1 - x ^ 2)).
Proof.
  intros x H. apply is_derive_Reals. replace (x ^ 2) with (x²) by (unfold Rsqr; ring). rewrite <- (derive_pt_asin x H). apply (derive_pt_eq_1 _ _ _ (derivable_pt_asin x H)). reflexivity.
Qed.
Lemma asin_at_1 : continuous asin 1.
Proof.
  apply filterlim_locally. intros [e He]. set (r := Rmin e (PI / 2)). pose proof PI_RGT_0. assert (Hr : 0 < r <= PI / 2) by (unfold r; split; [apply Rmin_glb_lt; lra|apply Rmin_r]).
  assert (S1 : sin (PI / 2 - r) < 1). { rewrite <- sin_PI2. apply sin_increasing_1; lra. }
  exists (mkposreal _ (Rlt_Rminus _ _ S1)). intros u Hu. unfold ball in *. cbn in *. unfold AbsRing_ball, abs, minus, plus, opp in *. cbn in *. rewrite asin_1.
  apply Rabs_def2 in Hu. assert (L : PI / 2 - r < asin u).
  { destruct (Rle_dec 1 u) as [L|L]; [unfold asin; destruct (Rle_dec u (-1)); [lra|]; destruct (Rle_dec 1 u); lra|]. apply Rnot_le_lt. intros C.
    assert (B : -1 < u < 1). { split; [|lra]. pose proof (SIN_bound (PI / 2 - r)). destruct (Rle_dec (PI / 2 - r) 0); [assert (r = PI / 2) by lra; subst r; replace (PI / 2 - PI / 2) with 0 in Hu by ring; lra|]. assert (0 <= sin (PI / 2 - r)) by (apply sin_ge_0; lra). lra. }
    pose proof (asin_bound_lt u B). pose proof (sin_asin u ltac:(lra)) as Q. assert (sin (asin u) <= sin (PI / 2 - r)) by (apply sin_incr_1; lra). lra. }
  pose proof (asin_bound u). assert (r <= e) by apply Rmin_l. apply Rabs_def1; lra.
Qed.
Lemma asin_at_m1 : continuous asin (-1).
Proof.
  apply (continuous_ext (fun x => - asin (- x))); [intros x; rewrite asin_opp; apply Ropp_involutive|]. apply (continuous_opp (fun x => asin (- x)) (-1)). apply (continuous_comp Ropp asin).
  - apply (ex_derive_continuous Ropp). auto_derive. exact I.
  - replace (- -1) with 1 by ring. apply asin_at_1.
Qed.

Section Semicircle.
Variables lo hi : R.
Hypothesis Hlo : 0 <= lo.
Hypothesis Hhi : lo < hi.
Let s := (hi + lo) / 2.
Let d := (hi - lo) / 2.
Let p := sqrt (lo * hi).
Let rt x := sqrt ((hi - x) * (x - lo)).
Lemma p_sq : p * p = lo * hi. Proof. unfold p. apply sqrt_sqrt. nra. Qed.
Lemma rt_pos : forall x, lo < x < hi -> 0 < rt x /\ rt x * rt x = (hi - x) * (x - lo).
Proof. intros x H. unfold rt. assert (0 < (hi - x) * (x - lo)) by nra. split; [apply sqrt_lt_R0; lra|apply sqrt_sqrt; lra]. Qed.
Lemma d_rt : forall x, lo < x < hi -> is_derive rt x ((s - x) / rt x).
Proof.
  intros x H. destruct (rt_pos x H) as [P E]. unfold rt. auto_derive; [nra|]. fold (rt x). replace ((hi + - x) * (x + - lo)) with ((hi - x) * (x - lo)) by ring. fold (rt x). unfold s. field. lra.
Qed.
Lemma d_arc : forall x, lo < x < hi -> is_derive (fun x => asin ((x - s) / d)) x (/ rt x).
Proof.
  intros x H. destruct (rt_pos x H) as [P E]. assert (D : 0 < d) by (unfold d; lra).
  assert (U : -1 < (x - s) / d < 1). { split; [apply Rmult_lt_reg_r with d; [lra|]|apply Rmult_lt_reg_r with d; [lra|]]; unfold Rdiv; rewrite Rmult_assoc, Rinv_l by lra; unfold s, d; lra. }
  assert (Q : sqrt (1 - ((x - s) / d) ^ 2) = rt x / d). { apply sqrt_lem_1; [nra|apply Rlt_le, Rdiv_lt_0_compat; lra|]. replace (rt x / d * (rt x / d)) with (rt x * rt x / (d * d)) by (field; lra). rewrite E. unfold s, d. field. lra. }
  replace (/ rt x) with (scal (/ d) (1 / sqrt (1 - ((x - s) / d) ^ 2))) by (rewrite Q; unfold scal; cbn; unfold mult; cbn; field; lra).
  apply (is_derive_comp asin (fun x => (x - s) / d)); [apply is_derive_asin; exact U|]. auto_derive; [lra|field; lra].
Qed.
Lemma d_arc2 : 0 < p -> forall x, lo < x < hi -> is_derive (fun x => asin ((s * x - p * p) / (x * d))) x (p / (x * rt x)).
Proof.
  intros Hp x H. destruct (rt_pos x H) as [P E]. assert (D : 0 < d) by (unfold d; lra). assert (X : 0 < x) by lra. pose proof p_sq as Ep.
  assert (K : (x * d) * (x * d) - (s * x - p * p) * (s * x - p * p) = p * p * (rt x * rt x)) by (rewrite E, Ep; unfold s, d; field).
  assert (XD : 0 < x * d) by nra. assert (PR : 0 < p * rt x) by nra.
  assert (U : -1 < (s * x - p * p) / (x * d) < 1). { split; apply Rmult_lt_reg_r with (x * d); try lra; unfold Rdiv; rewrite Rmult_assoc, Rinv_l by lra; nra. }
  assert (Q : sqrt (1 - ((s * x - p * p) / (x * d)) ^ 2) = p * rt x / (x * d)).
  { apply sqrt_lem_1; [nra|apply Rlt_le, Rdiv_lt_0_compat; lra|]. apply Rmult_eq_reg_r with (x * d * (x * d)); [|nra]. transitivity (p * p * (rt x * rt x)); [field; lra|]. rewrite <- K. field. lra. }
  replace (p / (x * rt x)) with (scal (p * p / (x * x * d)) (1 / sqrt (1 - ((s * x - p * p) / (x * d)) ^ 2))) by (rewrite Q; unfold scal; cbn; unfold mult; cbn; field; repeat split; lra).
  apply (is_derive_comp asin (fun x => (s * x - p * p) / (x * d))); [apply is_derive_asin; exact U|]. auto_derive; [lra|field; split; lra].
Qed.

(** antiderivatives of rt x / x, of rt x and of x * rt x *)
Let F0 x := rt x + s * asin ((x - s) / d) - (if Rlt_dec 0 p then p * asin ((s * x - p * p) / (x * d)) else 0).
Let F1 x := ((x - s) * rt x + d * d * asin ((x - s) / d)) / 2.
Let F2 x := s * F1 x - rt x * rt x * rt x / 3.
Lemma d_F0 : forall x, lo < x < hi -> is_derive F0 x (rt x / x).
Proof.
  intros x H. destruct (rt_pos x H) as [P E]. assert (X : 0 < x) by lra. pose proof p_sq as Ep. unfold F0.
  assert (A : is_derive (fun x => rt x + s * asin ((x - s) / d)) x ((s - x) / rt x + s * / rt x)).
  { apply (is_derive_plus rt (fun x => s * asin ((x - s) / d))); [apply d_rt; exact H|]. apply (is_derive_scal (fun x => asin ((x - s) / d)) x s). apply d_arc. exact H. }
  destruct (Rlt_dec 0 p) as [Hp|Hp].
  - replace (rt x / x) with (((s - x) / rt x + s * / rt x) - p * (p / (x * rt x))).
    + apply (is_derive_minus (fun x => rt x + s * asin ((x - s) / d)) (fun x => p * asin ((s * x - p * p) / (x * d)))); [exact A|]. apply (is_derive_scal (fun x => asin ((s * x - p * p) / (x * d))) x p). now apply d_arc2.
    + apply Rmult_eq_reg_r with (x * rt x); [|nra]. transitivity (2 * s * x - x * x - p * p); [field; lra|]. rewrite Ep. transitivity (rt x * rt x); [rewrite E; unfold s; field|field; lra].
  - assert (H0 : p = 0) by (assert (0 <= p) by apply sqrt_pos; lra). replace (rt x / x) with (((s - x) / rt x + s * / rt x) - 0).
    + apply (is_derive_minus (fun x => rt x + s * asin ((x - s) / d)) (fun x => 0)); [exact A|]. apply (is_derive_const 0 x).
    + apply Rmult_eq_reg_r with (x * rt x); [|nra]. transitivity (2 * s * x - x * x - p * p); [rewrite H0; field; lra|]. rewrite Ep. transitivity (rt x * rt x); [rewrite E; unfold s; field|field; lra].
Qed.
Lemma d_F1 : forall x, lo < x < hi -> is_derive F1 x (rt x).
Proof.
  intros x H. destruct (rt_pos x H) as [P E]. unfold F1.
  replace (rt x) with (/ 2 * ((1 * rt x + (x - s) * ((s - x) / rt x)) + d * d * / rt x)) at 1.
  - apply (is_derive_ext (fun x => / 2 * ((x - s) * rt x + d * d * asin ((x - s) / d)))); [intros t; apply Rmult_comm|]. apply (is_derive_scal (fun x => (x - s) * rt x + d * d * asin ((x - s) / d)) x (/ 2)).
    apply (is_derive_plus (fun x => (x - s) * rt x) (fun x => d * d * asin ((x - s) / d))).
    + apply (is_derive_mult (fun x => x - s) rt x 1 ((s - x) / rt x)); [|apply d_rt; exact H|intros; apply Rmult_comm]. auto_derive; auto; ring.
    + apply (is_derive_scal (fun x => asin ((x - s) / d)) x (d * d)). now apply d_arc.
  - apply Rmult_eq_reg_r with (rt x); [|lra]. transitivity (/ 2 * (rt x * rt x - (x - s) * (x - s) + d * d)); [field; lra|]. rewrite E. unfold s, d. field.
Qed.
Lemma d_F2 : forall x, lo < x < hi -> is_derive F2 x (x * rt x).
Proof.
  intros x H. destruct (rt_pos x H) as [P E]. unfold F2.
  replace (x * rt x) with (s * rt x - / 3 * ((s - x) / rt x * (3 * (rt x * rt x)))) by (field; lra).
  apply (is_derive_minus (fun x => s * F1 x) (fun x => rt x * rt x * rt x / 3)); [apply (is_derive_scal F1 x s); now apply d_F1|].
  apply (is_derive_ext (fun x => / 3 * (rt x * rt x * rt x))); [intros t; apply Rmult_comm|]. apply (is_derive_scal (fun x => rt x * rt x * rt x) x (/ 3)).
  apply (is_derive_comp (fun y => y * y * y) rt x (3 * (rt x * rt x)) ((s - x) / rt x)); [auto_derive; auto; ring|now apply d_rt].
Qed.
Lemma rt_cont : forall x, continuous rt x.
Proof.
  intros x. unfold rt. apply (continuous_comp (fun x => (hi - x) * (x - lo)) sqrt); [|apply continuous_sqrt]. apply (ex_derive_continuous (fun x => (hi - x) * (x - lo))). auto_derive. exact I.
Qed.
Lemma rt_ends : rt lo = 0 /\ rt hi = 0.
Proof. unfold rt. split; rewrite <- sqrt_0; f_equal; ring. Qed.
Lemma arc_ends : (lo - s) / d = -1 /\ (hi - s) / d = 1.
Proof. unfold s, d. split; field; lra. Qed.
Lemma arc_cont : forall x, x = lo \/ x = hi -> continuous (fun x => asin ((x - s) / d)) x.
Proof.
  intros x H. assert (D : 0 < d) by (unfold d; lra). apply (continuous_comp (fun x => (x - s) / d) asin).
  - apply (ex_derive_continuous (fun x => (x - s) / d)). auto_derive. lra.
  - destruct arc_ends as [E1 E2]. destruct H as [->| ->]; [rewrite E1; apply asin_at_m1|rewrite E2; apply asin_at_1].
Qed.
Lemma arc2_ends : 0 < p -> (s * lo - p * p) / (lo * d) = -1 /\ (s * hi - p * p) / (hi * d) = 1 /\ 0 < lo.
Proof.
  intros Hp. assert (L : 0 < lo) by (pose proof p_sq; nra). rewrite p_sq. unfold s, d. split; [field; lra|]. split; [field; lra|exact L].
Qed.
Lemma arc2_cont : 0 < p -> forall x, x = lo \/ x = hi -> continuous (fun x => asin ((s * x - p * p) / (x * d))) x.
Proof.
  intros Hp x H. destruct (arc2_ends Hp) as (E1 & E2 & L). assert (D : 0 < d) by (unfold d; lra). apply (continuous_comp (fun x => (s * x - p * p) / (x * d)) asin).
  - apply (ex_derive_continuous (fun x => (s * x - p * p) / (x * d))). auto_derive. destruct H as [->| ->]; nra.
  - destruct H as [->| ->]; [rewrite E1; apply asin_at_m1|rewrite E2; apply asin_at_1].
Qed.
Lemma c_scal : forall (f : R -> R) c x, continuous f x -> continuous (fun x => c * f x) x.
Proof. intros f c x H. apply (continuous_scal_r c f x H). Qed.
Lemma c_plus : forall (f g : R -> R) x, continuous f x -> continuous g x -> continuous (fun x => f x + g x) x.
Proof. intros f g x H1 H2. apply (continuous_plus f g x H1 H2). Qed.
Lemma c_mult : forall (f g : R -> R) x, continuous f x -> continuous g x -> continuous (fun x => f x * g x) x.
Proof. intros f g x H1 H2. apply (continuous_mult f g x H1 H2). Qed.
Lemma c_minus : forall (f g : R -> R) x, continuous f x -> continuous g x -> continuous (fun x => f x - g x) x.
Proof. intros f g x H1 H2. apply (continuous_minus f g x H1 H2). Qed.
Lemma F0_cont : forall x, x = lo \/ x = hi -> continuous F0 x.
Proof.
  intros x H. unfold F0. apply c_minus; [apply c_plus; [apply rt_cont|apply c_scal, arc_cont; exact H]|]. destruct (Rlt_dec 0 p) as [Hp|Hp]; [apply c_scal, arc2_cont; auto|apply continuous_const].
Qed.
Lemma F1_cont : forall x, x = lo \/ x = hi -> continuous F1 x.
Proof.
  intros x H. unfold F1. apply (c_mult (fun x => (x - s) * rt x + d * d * asin ((x - s) / d)) (fun _ => / 2)); [|apply continuous_const].
  apply c_plus; [apply c_mult; [|apply rt_cont]|apply c_scal, arc_cont; exact H]. apply c_minus; [apply continuous_id|apply continuous_const].
Qed.
Lemma F2_cont : forall x, x = lo \/ x = hi -> continuous F2 x.
Proof.
  intros x H. unfold F2. apply c_minus; [apply c_scal, F1_cont; exact H|]. apply (c_mult (fun x => rt x * rt x * rt x) (fun _ => / 3)); [|apply continuous_const]. repeat apply c_mult; apply rt_cont.
Qed.
Lemma F0_ends : F0 hi - F0 lo = PI * (s - p).
Proof.
  unfold F0. destruct rt_ends as [-> ->], arc_ends as [-> ->]. replace (asin (-1)) with (- (PI / 2)) by (rewrite <- asin_1, <- asin_opp; f_equal; ring). rewrite asin_1.
  destruct (Rlt_dec 0 p) as [Hp|Hp]; [destruct (arc2_ends Hp) as (-> & -> & _); replace (asin (-1)) with (- (PI / 2)) by (rewrite <- asin_1, <- asin_opp; f_equal; ring); rewrite asin_1; field|].
  assert (H0 : p = 0) by (assert (0 <= p) by apply sqrt_pos; lra). rewrite H0. field.
Qed.
Lemma F1_ends : F1 hi - F1 lo = PI * (d * d) / 2.
Proof.
  unfold F1. destruct rt_ends as [-> ->], arc_ends as [-> ->]. replace (asin (-1)) with (- (PI / 2)) by (rewrite <- asin_1, <- asin_opp; f_equal; ring). rewrite asin_1. field.
Qed.
Lemma F2_ends : F2 hi - F2 lo = s * (PI * (d * d) / 2).
Proof. unfold F2. destruct rt_ends as [-> ->]. rewrite <- F1_ends. field. Qed.

Lemma near_right : forall P : R -> Prop, (forall x, lo < x < hi -> P x) -> at_right lo P.
Proof.
  intros P H. exists (mkposreal (hi - lo) (Rlt_Rminus _ _ Hhi)). intros x Hx L. apply H. unfold ball in Hx. cbn in Hx. unfold AbsRing_ball, abs, minus, plus, opp in Hx. cbn in Hx. apply Rabs_def2 in Hx. lra.
Qed.
Lemma near_left : forall P : R -> Prop, (forall x, lo < x < hi -> P x) -> at_left hi P.
Proof.
  intros P H. exists (mkposreal (hi - lo) (Rlt_Rminus _ _ Hhi)). intros x Hx L. apply H. unfold ball in Hx. cbn in Hx. unfold AbsRing_ball, abs, minus, plus, opp in Hx. cbn in Hx. apply Rabs_def2 in Hx. lra.
Qed.
Lemma near_both : forall P : R * R -> Prop, (forall x y, lo < x < hi -> lo < y < hi -> P (x, y)) -> filter_prod (at_right lo) (at_left hi) P.
Proof.
  intros P H. apply (Filter_prod _ _ _ (fun x => lo < x < hi) (fun x => lo < x < hi)); [apply near_right; auto|apply near_left; auto|exact H].
Qed.
Lemma improper : forall (F f : R -> R), (forall x, lo < x < hi -> is_derive F x (f x)) -> (forall x, lo < x < hi -> continuous f x) -> continuous F lo -> continuous F hi ->
  is_RInt_gen f (at_right lo) (at_left hi) (F hi - F lo).
Proof.
  intros F f HF Hf Cl Ch.
  assert (Bt : forall x y z, lo < x < hi -> lo < y < hi -> Rmin x y <= z <= Rmax x y -> lo < z < hi) by (intros x y z Hx Hy; unfold Rmin, Rmax; destruct (Rle_dec x y); lra).
  apply (is_RInt_gen_ext (Derive F)).
  - apply near_both. intros x y Hx Hy z Hz. cbn [fst snd] in Hz. apply is_derive_unique. apply HF. apply (Bt x y); auto. lra.
  - apply (is_RInt_gen_Derive F (F lo) (F hi)).
    + apply near_both. intros x y Hx Hy z Hz. exists (f z). apply HF. apply (Bt x y); auto.
    + apply near_both. intros x y Hx Hy z Hz. cbn [fst snd] in Hz. assert (Z : lo < z < hi) by (apply (Bt x y); auto).
      apply (continuous_ext_loc (Derive F) f z); [|now apply Hf]. assert (P : 0 < Rmin (z - lo) (hi - z)) by (apply Rmin_glb_lt; lra). exists (mkposreal _ P). intros w Hw. symmetry. apply is_derive_unique. apply HF.
      unfold ball in Hw. cbn in Hw. unfold AbsRing_ball, abs, minus, plus, opp in Hw. cbn in Hw. apply Rabs_def2 in Hw. pose proof (Rmin_l (z - lo) (hi - z)). pose proof (Rmin_r (z - lo) (hi - z)). lra.
    + intros P HP. destruct (Cl P HP) as [e He]. exists e. intros x Hx _. now apply He.
    + intros P HP. destruct (Ch P HP) as [e He]. exists e. intros x Hx _. now apply He.
Qed.
Lemma moments : is_RInt_gen (fun x => rt x / x) (at_right lo) (at_left hi) (PI * (s - p)) /\ is_RInt_gen rt (at_right lo) (at_left hi) (PI * (d * d) / 2) /\
  is_RInt_gen (fun x => x * rt x) (at_right lo) (at_left hi) (s * (PI * (d * d) / 2)).
Proof.
  rewrite <- F0_ends. rewrite <- F2_ends at 1. rewrite <- F1_ends at 1. split; [|split]; apply improper.
  - exact d_F0.
  - intros x H. apply (c_mult rt (fun x => / x)); [apply rt_cont|]. apply (ex_derive_continuous Rinv). auto_derive. lra.
  - apply F0_cont. now left.
  - apply F0_cont. now right.
  - exact d_F1.
  - intros x H. apply rt_cont.
  - apply F1_cont. now left.
  - apply F1_cont. now right.
  - exact d_F2.
  - intros x H. apply c_mult; [apply continuous_id|apply rt_cont].
  - apply F2_cont. now left.
  - apply F2_cont. now right.
Qed.
End Semicircle.

(** the density at x, that is the value the function returns for the array [x] *)
Definition density (var : R) (T N : nat) (x : R) : R := match mp_pdf var T N [Fin x] with Ok [Fin d] => d | _ => 0 end.
Lemma density_eq : forall var T N lo hi x, 0 < var -> (1 <= T)%nat -> (1 <= N)%nat -> mp_support var T N = Ok (lo, hi) -> lo < x < hi ->
  density var T N x = (INR T / INR N) / (2 * PI * var) * (sqrt ((hi - x) * (x - lo)) / x).
Proof.
  intros var T N lo hi x Hv HT HN Hs Hx. unfold density. destruct (C50_density var T N [Fin x]) as [_ K]. destruct (K Hv HT HN) as (lo' & hi' & pdf & E1 & E2 & L & V). rewrite E1 in Hs. injection Hs as -> ->.
  specialize (V 0%nat ltac:(cbn; lia)). cbn [nth] in V. destruct V as [V _]. destruct (V Hx) as (d & Ed & _ & ->). rewrite E2. destruct pdf as [|q [|? ?]]; try discriminate. cbn [nth] in Ed. rewrite Ed.
  destruct (C50_support var T N) as [_ S]. destruct (S HT HN ltac:(lra)) as (l & h & E & Hl & _). rewrite E in E1. injection E1 as -> ->. field. pose proof PI_RGT_0. repeat split; try lra. apply not_0_INR. lia.
Qed.
(** With at least as many time steps as assets the density is that of a probability distribution, with mean var and variance var^2 N/T.  With fewer, its integral is only T/N (the rest of the eigenvalues
    are 0), the integral of x times the density is still var. *)
Theorem C110_moments : forall var T N, 0 < var -> (1 <= T)%nat -> (1 <= N)%nat -> exists lo hi, mp_support var T N = Ok (lo, hi) /\
  (forall x, ~ lo < x < hi -> density var T N x = 0) /\
  is_RInt_gen (density var T N) (at_right lo) (at_left hi) (Rmin 1 (INR T / INR N)) /\
  is_RInt_gen (fun x => x * density var T N x) (at_right lo) (at_left hi) var /\
  is_RInt_gen (fun x => x ^ 2 * density var T N x) (at_right lo) (at_left hi) (var ^ 2 * (1 + INR N / INR T)).
Proof.
  intros var T N Hv HT HN. destruct (C50_support var T N) as [_ S]. destruct (S HT HN ltac:(lra)) as (lo & hi & Es & [Hl _] & Sum & Prod & K). destruct (K Hv) as [Hlh _]. exists lo, hi. split; [exact Es|].
  split.
  { intros x Hx. unfold density. destruct (C50_density var T N [Fin x]) as [_ D]. destruct (D Hv HT HN) as (lo' & hi' & pdf & E1 & E2 & L & V). rewrite E1 in Es. injection Es as -> ->.
    specialize (V 0%nat ltac:(cbn; lia)). cbn [nth] in V. destruct V as [_ V]. specialize (V Hx). rewrite E2. destruct pdf as [|q [|? ?]]; try discriminate. cbn [nth] in V. rewrite V. reflexivity. }
  assert (PT : 0 < INR T) by (apply lt_0_INR; lia). assert (PN : 0 < INR N) by (apply lt_0_INR; lia). pose proof PI_RGT_0 as Pi.
  set (c := INR T / INR N / (2 * PI * var)). destruct (moments lo hi Hl Hlh) as (M0 & M1 & M2).
  set (r := INR N / INR T) in *. assert (Pr : 0 < r) by (apply Rdiv_lt_0_compat; lra). assert (Eq : INR T / INR N = / r) by (unfold r; field; lra).
  assert (P : sqrt (lo * hi) = var * Rabs (1 - r)).
  { rewrite Prod. replace (var * (1 - r) * (var * (1 - r))) with ((var * (1 - r))²) by reflexivity. rewrite sqrt_Rsqr_abs, Rabs_mult, (Rabs_right var) by lra. reflexivity. }
  assert (Dd : (hi - lo) / 2 * ((hi - lo) / 2) = 4 * var ^ 2 * r).
  { replace ((hi - lo) / 2 * ((hi - lo) / 2)) with ((lo + hi) ^ 2 / 4 - lo * hi) by field. rewrite Sum, Prod. field. }
  assert (Sc : forall (f g : R -> R) l l', (forall x, lo < x < hi -> g x = c * f x) -> c * l = l' -> is_RInt_gen f (at_right lo) (at_left hi) l -> is_RInt_gen g (at_right lo) (at_left hi) l').
  { intros f g l l' Hg <- Hf. apply (is_RInt_gen_ext (fun x => scal c (f x))).
    - apply near_both; [exact Hlh|]. intros x y Hx Hy z Hz. cbn [fst snd] in Hz. symmetry. apply Hg. revert Hz. unfold Rmin, Rmax. destruct (Rle_dec x y); lra.
    - apply (is_RInt_gen_scal f c l Hf). }
  split; [|split].
  - refine (Sc _ _ _ _ _ _ M0).
    + intros x Hx. rewrite (density_eq var T N lo hi x) by auto. reflexivity.
    + rewrite P. unfold c. rewrite Eq. replace ((hi + lo) / 2) with (var * (1 + r)) by lra. unfold Rmin. destruct (Rle_dec 1 (/ r)) as [L|L].
      * assert (r <= 1) by (apply Rmult_le_compat_r with (r := r) in L; [rewrite Rinv_l in L by lra; lra|lra]). rewrite Rabs_right by lra. field. repeat split; lra.
      * assert (1 < r). { apply Rnot_le_lt in L. apply Rmult_lt_compat_r with (r := r) in L; [rewrite Rinv_l in L by lra; lra|lra]. } rewrite Rabs_left by lra. field. repeat split; lra.
  - refine (Sc _ _ _ _ _ _ M1).
    + intros x Hx. rewrite (density_eq var T N lo hi x) by auto. fold c. field. lra.
    + rewrite Dd. unfold c. rewrite Eq. field. repeat split; lra.
  - refine (Sc _ _ _ _ _ _ M2).
    + intros x Hx. rewrite (density_eq var T N lo hi x) by auto. fold c. field. lra.
    + rewrite Dd. unfold c. rewrite Eq. replace ((hi + lo) / 2) with (var * (1 + r)) by lra. field. repeat split; lra.
Qed.
Print Assumptions C110_moments.
(** four time steps and one asset; one time step and two assets *)
Example C110_four_one : is_RInt_gen (density 1 4 1) (at_right (1/4)) (at_left (9/4)) 1.
Proof.
  destruct (C110_moments 1 4 1) as (lo & hi & E & _ & M & _); try lia; try lra.
  assert (E' : mp_support 1 4 1 = Ok (1/4, 9/4)). { unfold mp_support. cbn [Nat.eqb]. replace (1 / (INR 4 / INR 1)) with ((1/2)²) by (unfold Rsqr; cbn; field). rewrite sqrt_Rsqr by lra. f_equal. f_equal; field. }
  rewrite E' in E. injection E as <- <-. replace (Rmin 1 (INR 4 / INR 1)) with 1 in M; [exact M|]. cbn. rewrite Rmin_left; lra.
Qed.
Example C110_too_short : exists lo hi, mp_support 1 1 2 = Ok (lo, hi) /\ is_RInt_gen (density 1 1 2) (at_right lo) (at_left hi) (1 / 2).
Proof.
  destruct (C110_moments 1 1 2) as (lo & hi & E & _ & M & _); try lia; try lra. exists lo, hi. split; [exact E|]. replace (Rmin 1 (INR 1 / INR 2)) with (1 / 2) in M; [exact M|]. cbn. rewrite Rmin_right; lra.
Qed.
