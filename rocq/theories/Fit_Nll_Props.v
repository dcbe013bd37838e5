(** Property C105: the likelihood of a fitted model compared with the largest one. *)
From Coq Require Import Reals Lra String ZArith List Arith Bool Lia.
From Verif Require Import Base Num Sums Sim_Model Sim_Spec Sim_Proofs Sim_Fit_Proofs Sim_Fit_Props Feat_Proofs Sim_OU_Props OUFit_Spec OUFit_Props.
Import ListNotations.
Open Scope R_scope.

(** how far the minus log-likelihood of a fit to n changes lies above the smallest one *)
Definition gap (n : nat) : R := INR n / 2 * ln (INR n / INR (n - 1)) - 1 / 2.
(** one series as data *)
Definition one_column (n : nat) (x : nat -> R) : sdata := DNp2 (farr (n + 1) 1 (fun t _ => x t)).
Definition changes (n : nat) (x : nat -> R) : list R := map (fun t => x (t + 1)%nat - x t) (seq 0 n).
Definition all_equal (l : list R) : Prop := forall a b, In a l -> In b l -> a = b.

Lemma ln_lt1 : forall x, 0 < x -> x <> 1 -> ln x < x - 1.
Proof.
  intros x Hx Hn. destruct (Req_dec (ln x) 0) as [E|N]; [exfalso; apply Hn; rewrite <- (exp_ln x Hx), E; apply exp_0|].
  pose proof (exp_ineq1 (ln x) N) as K. rewrite exp_ln in K by auto. lra.
Qed.
Lemma gap_bounds : forall n, (2 <= n)%nat -> 0 < gap n < / (2 * INR (n - 1)).
Proof.
  intros n Hn. assert (P1 : 0 < INR (n - 1)) by (apply lt_0_INR; lia). assert (E : INR n = INR (n - 1) + 1) by (rewrite <- S_INR; f_equal; lia). unfold gap. rewrite E. set (k := INR (n - 1)) in *. split.
  - pose proof (ln_lt1 (k / (k + 1))) as L. assert (0 < k / (k + 1)) by (apply Rdiv_lt_0_compat; lra).
    assert (Q : k / (k + 1) <> 1) by (intros X; apply (f_equal (fun z => z * (k + 1))) in X; unfold Rdiv in X; rewrite Rmult_assoc, Rinv_l in X by lra; lra). specialize (L H Q).
    assert (I : ln ((k + 1) / k) = - ln (k / (k + 1))) by (rewrite <- ln_Rinv by auto; f_equal; field; lra). rewrite I.
    assert (k / (k + 1) - 1 = - / (k + 1)) by (field; lra). assert ((k + 1) / 2 * / (k + 1) = 1 / 2) by (field; lra). assert (0 < (k + 1) / 2) by lra. nra.
  - pose proof (ln_lt1 ((k + 1) / k)) as L. assert (0 < (k + 1) / k) by (apply Rdiv_lt_0_compat; lra).
    assert (Q : (k + 1) / k <> 1) by (intros X; apply (f_equal (fun z => z * k)) in X; unfold Rdiv in X; rewrite Rmult_assoc, Rinv_l in X by lra; lra). specialize (L H Q).
    assert ((k + 1) / k - 1 = / k) by (field; lra). assert ((k + 1) / 2 * / k = 1 / 2 + / (2 * k)) by (field; lra). assert (0 < (k + 1) / 2) by lra. nra.
Qed.

(** the minus log-likelihood of n observations under one normal law *)
Lemma normal_nll_1 : forall n mu var f, 0 < var -> (0 < n)%nat ->
  let l := map (fun t => f t 0%nat) (seq 0 n) in
  normal_nll n 1 (fun _ => mu) (fun _ => var) f
  = INR n / 2 * ln (2 * PI * var) + (rsum (map (fun y => (y - rmean l) * (y - rmean l)) l) + INR n * (rmean l - mu) ^ 2) / (2 * var).
Proof.
  intros n mu var f Hv Hn l. unfold normal_nll. pose proof PI_RGT_0. assert (P : 0 < 2 * PI * var) by (apply Rmult_lt_0_compat; lra).
  assert (Hl : l <> []) by (unfold l; destruct n; [lia|discriminate]). assert (Ll : length l = n) by (unfold l; rewrite map_length, seq_length; auto).
  rewrite (rsum_ext _ _ (fun t => (- / (2 * var)) * (f t 0%nat - mu) ^ 2 + (- (ln (2 * PI * var) / 2)))).
  2:{ intros t _. cbn [seq map rsum fold_right]. rewrite Rplus_0_r. unfold normal_pdf.
      assert (S0 : 0 < sqrt (2 * PI * var)) by (apply sqrt_lt_R0; auto).
      unfold Rdiv at 1. rewrite ln_mult, ln_Rinv, ln_exp by (auto; try apply exp_pos; apply Rinv_0_lt_compat; auto).
      assert (E : ln (2 * PI * var) = ln (sqrt (2 * PI * var)) + ln (sqrt (2 * PI * var))) by (rewrite <- ln_mult by auto; rewrite sqrt_sqrt by lra; reflexivity).
      rewrite E. field. lra. }
  rewrite rsum_plus, rsum_scal, rsum_const, seq_length.
  assert (E : rsum (map (fun t => (f t 0%nat - mu) ^ 2) (seq 0 n)) = rsum (map (fun y => (y - rmean l) * (y - rmean l)) l) + INR n * (rmean l - mu) ^ 2).
  { transitivity (rsum (map (fun y => (y - mu) ^ 2) l)); [unfold l; rewrite map_map; reflexivity|].
    rewrite (rsum_ext _ (fun y => (y - mu) ^ 2) (fun y => (y - rmean l) * (y - rmean l) + ((2 * (rmean l - mu)) * (y - rmean l) + (rmean l - mu) ^ 2))) by (intros; ring).
    rewrite !rsum_plus, rsum_scal, rsum_const, Ll. pose proof (rsum_minus_mean _ (fun y : R => y) l Hl) as Z. rewrite map_id in Z. rewrite Z. ring. }
  rewrite E. field. lra.
Qed.

(** one variance and one mean are best *)
Lemma nll_min : forall n ss, (2 <= n)%nat -> 0 < ss ->
  let v1 := ss / INR (n - 1) in
  let value q var := INR n / 2 * ln (2 * PI * var) + (ss + INR n * q) / (2 * var) in
  forall q var, 0 <= q -> 0 < var ->
  value 0 v1 - gap n <= value q var /\ (value q var = value 0 v1 - gap n <-> q = 0 /\ var = v1 * (INR (n - 1) / INR n)).
Proof.
  intros n ss Hn Hs v1 value q var Hq Hv. assert (P1 : 0 < INR (n - 1)) by (apply lt_0_INR; lia). assert (P2 : 0 < INR n) by (apply lt_0_INR; lia). pose proof PI_RGT_0 as PP.
  assert (EN : INR n = INR (n - 1) + 1) by (rewrite <- S_INR; f_equal; lia).
  set (v0 := ss / INR n). assert (Ev : v1 * (INR (n - 1) / INR n) = v0) by (unfold v1, v0; field; lra). rewrite Ev. assert (Pv : 0 < v0) by (apply Rdiv_lt_0_compat; auto). assert (Pv1 : 0 < v1) by (apply Rdiv_lt_0_compat; auto).
  assert (EB : value 0 v1 - gap n = INR n / 2 * ln (2 * PI * v0) + INR n / 2).
  { unfold value, gap. assert (X : ln (2 * PI * v1) = ln (2 * PI * v0) + ln (INR n / INR (n - 1))) by (rewrite <- ln_mult; [f_equal; unfold v1, v0; field; lra|nra|apply Rdiv_lt_0_compat; auto]).
    rewrite X. replace ((ss + INR n * 0) / (2 * v1)) with (INR (n - 1) / 2) by (unfold v1; field; lra). rewrite EN. field. }
  rewrite EB.
  assert (ED : value q var - (INR n / 2 * ln (2 * PI * v0) + INR n / 2) = INR n / 2 * (v0 / var - 1 - ln (v0 / var)) + INR n * q / (2 * var)).
  { unfold value. assert (X : ln (2 * PI * v0) = ln (2 * PI * var) + ln (v0 / var)) by (rewrite <- ln_mult; [f_equal; field; lra|nra|apply Rdiv_lt_0_compat; auto]).
    rewrite X. unfold v0 at 2. field. lra. }
  assert (PR : 0 < v0 / var) by (apply Rdiv_lt_0_compat; auto). assert (Q0 : 0 <= INR n * q / (2 * var)) by (apply Rmult_le_pos; [nra|left; apply Rinv_0_lt_compat; lra]).
  destruct (Req_dec (v0 / var) 1) as [E|N].
  - rewrite E, ln_1 in ED. assert (Ev0 : var = v0) by (apply (f_equal (fun z => z * var)) in E; unfold Rdiv in E; rewrite Rmult_assoc, Rinv_l in E by lra; lra).
    split; [lra|]. split.
    + intros K. split; [|exact Ev0]. assert (Z : INR n * q / (2 * var) = 0) by lra. unfold Rdiv in Z. apply Rmult_integral in Z. destruct Z as [Z|Z]; [nra|]. assert (0 < / (2 * var)) by (apply Rinv_0_lt_compat; lra). lra.
    + intros [-> _]. replace (INR n * 0 / (2 * var)) with 0 in ED by (field; lra). lra.
  - pose proof (ln_lt1 _ PR N). assert (0 < INR n / 2 * (v0 / var - 1 - ln (v0 / var))) by (apply Rmult_lt_0_compat; lra). split; [lra|]. split; [lra|]. intros [_ ->]. exfalso. apply N. field. lra.
Qed.

Lemma ss_pos : forall l, (2 <= length l)%nat -> ~ all_equal l -> 0 < rsum (map (fun y => (y - rmean l) * (y - rmean l)) l) /\ rvar 1 l = rsum (map (fun y => (y - rmean l) * (y - rmean l)) l) / INR (length l - 1) /\ 0 < rvar 1 l.
Proof.
  intros l Hl N. assert (P : 0 < rvar 1 l) by (destruct (rvar_nonneg 1 l ltac:(lia)) as [P|P]; [exact P|]; exfalso; apply N; intros a b Ha Hb; symmetry in P; apply (proj1 (rvar_zero_iff l Hl) P); auto).
  assert (E : rvar 1 l = rsum (map (fun y => (y - rmean l) * (y - rmean l)) l) / INR (length l - 1)) by reflexivity. split; [|split; auto].
  assert (Q : 0 < INR (length l - 1)) by (apply lt_0_INR; lia). replace (rsum _) with (rvar 1 l * INR (length l - 1)) by (rewrite E; field; lra). apply Rmult_lt_0_compat; auto.
Qed.

(* ------------------------------------------------------------------ *)
(** ** C105 *)

(** BM: the fitted drift is the most likely one, the fitted vol is too large by sqrt (n / (n-1)); nll of the fit is above the smallest nll by
    gap n, which is positive and below 1 / (2 (n-1)). *)
Theorem C105_bm : forall infer chol mvn (o : obj bmpar) n x dt, (2 <= n)%nat -> 0 < dt -> ~ all_equal (changes n x) ->
  exists f d v L, fit infer (bm_fit_np chol) o (one_column n x) (Some (Fin dt)) = (f, Ok tt)
  /\ bm_drift (o_par f) = [Fin d] /\ bm_vol (o_par f) = [Fin v] /\ 0 < v
  /\ snd (nll infer (bm_nll_np mvn) f (one_column n x) (Some (Fin dt))) = Ok (Fin L)
  /\ forall d' v' k st, 0 < v' -> exists L',
     snd (nll infer (bm_nll_np mvn) (mkObj (mkBM [Fin d'] [Fin v'] None None) k st) (one_column n x) (Some (Fin dt))) = Ok (Fin L')
     /\ L - gap n <= L' /\ (L' = L - gap n <-> d' = d /\ v' = v * sqrt (INR (n - 1) / INR n)).
Proof.
  intros infer chol mvn o n x dt Hn Hdt Hne. unfold one_column. set (X := fun t (_ : nat) => x t). set (l := changes n x).
  assert (Ll : length l = n) by (unfold l, changes; rewrite map_length, seq_length; auto). destruct (ss_pos l) as (P1 & P2 & P3); [lia|exact Hne|]. set (ss := rsum (map (fun y => (y - rmean l) * (y - rmean l)) l)) in *.
  assert (Pn : 0 < INR n) by (apply lt_0_INR; lia). assert (Pm : 0 < INR (n - 1)) by (apply lt_0_INR; lia). rewrite Ll in P2.
  destruct (fit_changes_spec chol (o_par o) (diff0 (farr (n + 1) 1 X)) dt (incr X)) as (F1 & F2 & F3); [auto|cbn; lia| |].
  { intros t v Ht Hv. cbn [diff0 at2 farr]. rewrite nsub_fin. unfold incr. rewrite Nat.add_1_r. reflexivity. }
  cbn [diff0 nrow ncol farr seq map] in F1, F2, F3. replace (n + 1 - 1)%nat with n in F1, F2 by lia.
  destruct (F3 (le_n 1)) as (F4 & F5 & F6).
  assert (HB : forall d' v' k st, 0 < v' -> snd (nll infer (bm_nll_np mvn) (mkObj (mkBM [Fin d'] [Fin v'] None None) k st) (DNp2 (farr (n + 1) 1 X)) (Some (Fin dt)))
    = Ok (Fin (INR n / 2 * ln (2 * PI * (v' ^ 2 * dt)) + (ss + INR n * (rmean l - d' * dt) ^ 2) / (2 * (v' ^ 2 * dt))))).
  { intros d' v' k st Hv. pose proof (C26_bm_nll infer mvn [d'] [v'] k st X n dt ltac:(cbn; lia) ltac:(left; reflexivity) ltac:(intros s [<-|[]]; auto) Hdt) as E. cbn [length fins map] in E.
    etransitivity; [exact E|]. do 2 f_equal. transitivity (normal_nll n 1 (fun _ => d' * dt) (fun _ => v' ^ 2 * dt) (incr X)).
    - reflexivity.
    - rewrite normal_nll_1 by (try lia; apply Rmult_lt_0_compat; auto; apply pow_lt; auto). reflexivity. }
  set (d := rmean l / dt). set (v := sqrt (rvar 1 l) / sqrt dt). assert (Ps : 0 < sqrt dt) by (apply sqrt_lt_R0; auto). assert (Pr : 0 < sqrt (rvar 1 l)) by (apply sqrt_lt_R0; auto).
  assert (Pv : 0 < v) by (apply Rdiv_lt_0_compat; auto).
  assert (Ev : v ^ 2 * dt = ss / INR (n - 1)).
  { unfold v. replace ((sqrt (rvar 1 l) / sqrt dt) ^ 2 * dt) with ((sqrt (rvar 1 l) * sqrt (rvar 1 l)) * dt / (sqrt dt * sqrt dt)) by (field; lra). rewrite !sqrt_sqrt by lra. rewrite P2. field. lra. }
  assert (EF : fit infer (bm_fit_np chol) o (DNp2 (farr (n + 1) 1 X)) (Some (Fin dt)) = (mkObj (mkBM [Fin d] [Fin v] None None) (o_k o)
     (mkFit COther (Some (n + 1)%nat) (Some 1%nat) no_index None (Some (Fin dt)) (Some (row (farr (n + 1) 1 X) 0)) (Some (row (farr (n + 1) 1 X) (n + 1 - 1)))), Ok tt)).
  { unfold fit. rewrite preprocess_np2 by (cbn; lia). unfold bm_fit_np. destruct (fit_changes chol (o_par o) (diff0 (farr (n + 1) 1 X)) (Fin dt)) as [p r]. cbn [fst snd] in *. rewrite F4. destruct p as [p1 p2 p3 p4]. cbn [bm_drift bm_vol bm_cor bm_L] in *. rewrite F1, F2, F5, F6. reflexivity. }
  eexists; exists d, v; eexists. split; [exact EF|]. split; [reflexivity|]. split; [reflexivity|]. split; [exact Pv|]. split; [apply HB; auto|].
  intros d' v' k st Hv'. eexists. split; [apply HB; auto|].
  replace ((rmean l - d * dt) ^ 2) with 0 by (unfold d; field; lra). rewrite Ev.
  assert (Pv' : 0 < v' ^ 2 * dt) by (apply Rmult_lt_0_compat; auto; apply pow_lt; auto).
  destruct (nll_min n ss Hn P1 ((rmean l - d' * dt) ^ 2) (v' ^ 2 * dt) (pow2_ge_0 _) Pv') as [M1 M2]. split; [exact M1|]. rewrite M2. 
  assert (Pq : 0 < INR (n - 1) / INR n) by (apply Rdiv_lt_0_compat; auto). pose proof (sqrt_lt_R0 _ Pq) as Psq. split.
  - intros [E1 E2]. split.
    + assert (Z : rmean l - d' * dt = 0) by (apply Rsqr_0_uniq; rewrite Rsqr_pow2; exact E1). unfold d. replace (rmean l) with (d' * dt) by lra. field. lra.
    + apply Rsqr_inj; [lra|apply Rmult_le_pos; lra|]. unfold Rsqr. replace (v * sqrt (INR (n - 1) / INR n) * (v * sqrt (INR (n - 1) / INR n))) with (v ^ 2 * (sqrt (INR (n - 1) / INR n) * sqrt (INR (n - 1) / INR n))) by ring. rewrite sqrt_sqrt by lra.
      apply (Rmult_eq_reg_r dt); [|lra]. replace (v ^ 2 * (INR (n - 1) / INR n) * dt) with (v ^ 2 * dt * (INR (n - 1) / INR n)) by ring. rewrite Ev, <- E2. ring.
  - intros [-> ->]. split; [unfold d; field; lra|]. replace ((v * sqrt (INR (n - 1) / INR n)) ^ 2 * dt) with (v ^ 2 * dt * (sqrt (INR (n - 1) / INR n) * sqrt (INR (n - 1) / INR n))) by ring. rewrite sqrt_sqrt, Ev by lra. reflexivity.
Qed.
Print Assumptions C105_bm.

(** GBM: scored with mean drift - vol^2/2 although fitted with mean drift * dt, so the excess grows with the number of observations: at dt = 1
    it is gap n + n vol^2 / 8. *)
Theorem C105_gbm : forall infer chol mvn (o : obj bmpar) n x dt, (2 <= n)%nat -> 0 < dt -> (forall t, 0 < x t) -> ~ all_equal (changes n (fun t => ln (x t))) ->
  exists f d v L, fit infer (gbm_fit_np chol) o (one_column n x) (Some (Fin dt)) = (f, Ok tt)
  /\ bm_drift (o_par f) = [Fin d] /\ bm_vol (o_par f) = [Fin v] /\ 0 < v
  /\ snd (nll infer (gbm_nll_np mvn) f (one_column n x) (Some (Fin dt))) = Ok (Fin L)
  /\ let excess := gap n + INR n * (d * dt - (d - v ^ 2 / 2)) ^ 2 / (2 * (v ^ 2 * dt)) in
     (dt = 1 -> excess = gap n + INR n * v ^ 2 / 8)
  /\ forall d' v' k st, 0 < v' -> exists L',
     snd (nll infer (gbm_nll_np mvn) (mkObj (mkBM [Fin d'] [Fin v'] None None) k st) (one_column n x) (Some (Fin dt))) = Ok (Fin L')
     /\ L - excess <= L' /\ (L' = L - excess <-> d' = d * dt + v' ^ 2 / 2 /\ v' = v * sqrt (INR (n - 1) / INR n)).
Proof.
  intros infer chol mvn o n x dt Hn Hdt Hx Hne. unfold one_column. set (X := fun t (_ : nat) => x t). set (l := changes n (fun t => ln (x t))) in *. set (Y := fun t (_ : nat) => ln (x t)).
  assert (Ll : length l = n) by (unfold l, changes; rewrite map_length, seq_length; auto). destruct (ss_pos l) as (P1 & P2 & P3); [lia|exact Hne|]. set (ss := rsum (map (fun y => (y - rmean l) * (y - rmean l)) l)) in *.
  assert (Pn : 0 < INR n) by (apply lt_0_INR; lia). assert (Pm : 0 < INR (n - 1)) by (apply lt_0_INR; lia). rewrite Ll in P2.
  destruct (fit_changes_spec chol (o_par o) (logret (farr (n + 1) 1 X)) dt (incr Y)) as (F1 & F2 & F3); [auto|cbn; lia| |].
  { intros t v Ht Hv. cbn [logret at2 farr]. pose proof (Hx t). pose proof (Hx (S t)). unfold X. rewrite ndiv_fin by lra. rewrite nlog_fin by (apply Rdiv_lt_0_compat; auto).
    unfold Rdiv. rewrite ln_mult, ln_Rinv by (auto; apply Rinv_0_lt_compat; auto). unfold incr, Y. rewrite Nat.add_1_r. reflexivity. }
  cbn [logret nrow ncol farr seq map] in F1, F2, F3. replace (n + 1 - 1)%nat with n in F1, F2 by lia.
  destruct (F3 (le_n 1)) as (F4 & F5 & F6).
  assert (HB : forall d' v' k st, 0 < v' -> snd (nll infer (gbm_nll_np mvn) (mkObj (mkBM [Fin d'] [Fin v'] None None) k st) (DNp2 (farr (n + 1) 1 X)) (Some (Fin dt)))
    = Ok (Fin (INR n / 2 * ln (2 * PI * (v' ^ 2 * dt)) + (ss + INR n * (rmean l - (d' - v' ^ 2 / 2)) ^ 2) / (2 * (v' ^ 2 * dt))))).
  { intros d' v' k st Hv. pose proof (C26_gbm_nll infer mvn [d'] [v'] k st X n dt ltac:(cbn; lia) ltac:(left; reflexivity) ltac:(intros s [<-|[]]; auto) Hdt ltac:(intros; apply Hx)) as E. cbn [length fins map] in E.
    etransitivity; [exact E|]. do 2 f_equal. transitivity (normal_nll n 1 (fun _ => d' - v' ^ 2 / 2) (fun _ => v' ^ 2 * dt) (incr Y)).
    - reflexivity.
    - rewrite normal_nll_1 by (try lia; apply Rmult_lt_0_compat; auto; apply pow_lt; auto). reflexivity. }
  set (d := rmean l / dt). set (v := sqrt (rvar 1 l) / sqrt dt). assert (Ps : 0 < sqrt dt) by (apply sqrt_lt_R0; auto). assert (Pr : 0 < sqrt (rvar 1 l)) by (apply sqrt_lt_R0; auto).
  assert (Pv : 0 < v) by (apply Rdiv_lt_0_compat; auto). assert (Ed : rmean l = d * dt) by (unfold d; field; lra).
  assert (Ev : v ^ 2 * dt = ss / INR (n - 1)).
  { unfold v. replace ((sqrt (rvar 1 l) / sqrt dt) ^ 2 * dt) with ((sqrt (rvar 1 l) * sqrt (rvar 1 l)) * dt / (sqrt dt * sqrt dt)) by (field; lra). rewrite !sqrt_sqrt by lra. rewrite P2. field. lra. }
  assert (EF : fit infer (gbm_fit_np chol) o (DNp2 (farr (n + 1) 1 X)) (Some (Fin dt)) = (mkObj (mkBM [Fin d] [Fin v] None None) (o_k o)
     (mkFit COther (Some (n + 1)%nat) (Some 1%nat) no_index None (Some (Fin dt)) (Some (row (farr (n + 1) 1 X) 0)) (Some (row (farr (n + 1) 1 X) (n + 1 - 1)))), Ok tt)).
  { unfold fit. rewrite preprocess_np2 by (cbn; lia). unfold gbm_fit_np. destruct (fit_changes chol (o_par o) (logret (farr (n + 1) 1 X)) (Fin dt)) as [p r]. cbn [fst snd] in *. rewrite F4. destruct p as [p1 p2 p3 p4]. cbn [bm_drift bm_vol bm_cor bm_L] in *. rewrite F1, F2, F5, F6. reflexivity. }
  eexists; exists d, v; eexists. split; [exact EF|]. split; [reflexivity|]. split; [reflexivity|]. split; [exact Pv|]. split; [apply HB; auto|]. cbv zeta. split.
  { intros ->. f_equal. field. lra. }
  intros d' v' k st Hv'. eexists. split; [apply HB; auto|]. rewrite Ed.
  assert (P0 : 0 < v ^ 2 * dt) by (apply Rmult_lt_0_compat; auto; apply pow_lt; auto).
  set (c := (d * dt - (d - v ^ 2 / 2)) ^ 2). set (c' := (d * dt - (d' - v' ^ 2 / 2)) ^ 2).
  assert (EL : INR n / 2 * ln (2 * PI * (v ^ 2 * dt)) + (ss + INR n * c) / (2 * (v ^ 2 * dt)) - (gap n + INR n * c / (2 * (v ^ 2 * dt)))
     = INR n / 2 * ln (2 * PI * (v ^ 2 * dt)) + (ss + INR n * 0) / (2 * (v ^ 2 * dt)) - gap n) by (field; lra).
  rewrite EL, Ev. assert (Pv' : 0 < v' ^ 2 * dt) by (apply Rmult_lt_0_compat; auto; apply pow_lt; auto).
  destruct (nll_min n ss Hn P1 c' (v' ^ 2 * dt) (pow2_ge_0 _) Pv') as [M1 M2]. split; [exact M1|]. rewrite M2.
  assert (Pq : 0 < INR (n - 1) / INR n) by (apply Rdiv_lt_0_compat; auto). pose proof (sqrt_lt_R0 _ Pq) as Psq. split.
  - intros [E1 E2]. split.
    + assert (Z : d * dt - (d' - v' ^ 2 / 2) = 0) by (apply Rsqr_0_uniq; rewrite Rsqr_pow2; exact E1). lra.
    + apply Rsqr_inj; [lra|apply Rmult_le_pos; lra|]. unfold Rsqr. replace (v * sqrt (INR (n - 1) / INR n) * (v * sqrt (INR (n - 1) / INR n))) with (v ^ 2 * (sqrt (INR (n - 1) / INR n) * sqrt (INR (n - 1) / INR n))) by ring. rewrite sqrt_sqrt by lra.
      apply (Rmult_eq_reg_r dt); [|lra]. replace (v ^ 2 * (INR (n - 1) / INR n) * dt) with (v ^ 2 * dt * (INR (n - 1) / INR n)) by ring. rewrite Ev, <- E2. ring.
  - intros [-> ->]. split; [unfold c'; ring|]. replace ((v * sqrt (INR (n - 1) / INR n)) ^ 2 * dt) with (v ^ 2 * dt * (sqrt (INR (n - 1) / INR n) * sqrt (INR (n - 1) / INR n))) by ring. rewrite sqrt_sqrt, Ev by lra. reflexivity.
Qed.
Print Assumptions C105_gbm.

(** ** OU *)
Lemma normal_nll_0 : forall n var f, 0 < var -> normal_nll n 1 (fun _ => 0) (fun _ => var) f = INR n / 2 * ln (2 * PI * var) + rsum (map (fun t => f t 0%nat ^ 2) (seq 0 n)) / (2 * var).
Proof.
  intros n var f Hv. unfold normal_nll. pose proof PI_RGT_0. assert (P : 0 < 2 * PI * var) by (apply Rmult_lt_0_compat; lra).
  rewrite (rsum_ext _ _ (fun t => (- / (2 * var)) * (f t 0%nat) ^ 2 + (- (ln (2 * PI * var) / 2)))).
  2:{ intros t _. cbn [seq map rsum fold_right]. rewrite Rplus_0_r. unfold normal_pdf.
      assert (S0 : 0 < sqrt (2 * PI * var)) by (apply sqrt_lt_R0; auto).
      unfold Rdiv at 1. rewrite ln_mult, ln_Rinv, ln_exp by (auto; try apply exp_pos; apply Rinv_0_lt_compat; auto).
      assert (E : ln (2 * PI * var) = ln (sqrt (2 * PI * var)) + ln (sqrt (2 * PI * var))) by (rewrite <- ln_mult by auto; rewrite sqrt_sqrt by lra; reflexivity).
      rewrite E. field. lra. }
  rewrite rsum_plus, rsum_scal, rsum_const, seq_length. field. lra.
Qed.
(** the residuals of a best line average to zero *)
Lemma best_residuals : forall s i pts, pts <> [] -> (forall a b, sq_error s i pts <= sq_error a b pts) -> rmean (residuals_of s i pts) = 0.
Proof.
  intros s i pts Hp H. set (mu := rmean (residuals_of s i pts)). specialize (H s (i + mu)).
  assert (E : sq_error s (i + mu) pts = sq_error s i pts - INR (length pts) * mu ^ 2).
  { unfold sq_error. rewrite (rsum_ext _ _ (fun p => (snd p - (s * fst p + i)) ^ 2 + ((-2 * mu) * (snd p - (s * fst p + i)) + mu ^ 2))) by (intros; ring).
    rewrite !rsum_plus, rsum_scal, rsum_const. assert (M : rsum (map (fun p => snd p - (s * fst p + i)) pts) = INR (length pts) * mu).
    { unfold mu, rmean, residuals_of. rewrite map_length. pose proof (INR_length_pos _ pts Hp). field. lra. }
    rewrite M. ring. }
  rewrite E in H. pose proof (INR_length_pos _ pts Hp). pose proof (pow2_ge_0 mu). apply Rsqr_0_uniq. rewrite Rsqr_pow2. nra.
Qed.

Definition path_of (n : nat) (x : nat -> R) : list R := map x (seq 0 (n + 1)).

(** OU, slope between the floor and 1: mean and mrr of the fit are the most likely ones, vol is too large by sqrt (n / (n-1)), with the same gap. *)
Theorem C105_ou : forall infer chol mvn (o : obj oupar) n x dt s i, (2 <= n)%nat -> 0 < dt -> ~ all_equal (map x (seq 0 n)) ->
  used_line (path_of n x) s i -> 1 / 100000000 < s -> s < 1 -> ~ all_equal (residuals_of s i (lagged (path_of n x))) ->
  exists f m k v L, fit infer (ou_fit_np chol) o (DNp1 (fins (path_of n x))) (Some (Fin dt)) = (f, Ok tt)
  /\ ou_mean (o_par f) = Scal (Fin m) /\ ou_mrr (o_par f) = Scal (Fin k) /\ ou_vol (o_par f) = Row [Fin v] /\ 0 < k /\ 0 < v
  /\ snd (nll infer (ou_nll_np mvn) f (one_column n x) (Some (Fin dt))) = Ok (Fin L)
  /\ forall m' k' v' j st, 0 < k' -> 0 < v' -> exists L',
     snd (nll infer (ou_nll_np mvn) (mkObj (mkOU (Row [Fin m']) (Row [Fin k']) (Row [Fin v']) None None) j st) (one_column n x) (Some (Fin dt))) = Ok (Fin L')
     /\ L - gap n <= L' /\ (L' = L - gap n <-> m' = m /\ k' = k /\ v' = v * sqrt (INR (n - 1) / INR n)).
Proof.
  intros infer chol mvn o n x dt s i Hn Hdt Hd U Ht H1 Hr. pose proof (used_line_pos _ _ _ U) as Hs.
  assert (Lp : length (path_of n x) = (n + 1)%nat) by (unfold path_of; rewrite map_length, seq_length; auto).
  assert (RL : removelast (path_of n x) = map x (seq 0 n)) by apply removelast_seq. assert (TL : tl (path_of n x) = map (fun t => x (S t)) (seq 0 n)) by apply tl_seq.
  assert (LG : lagged (path_of n x) = map (fun t => (x t, x (S t))) (seq 0 n)).
  { unfold lagged. rewrite RL, TL. clear. generalize 0%nat as a. induction n as [|n IH]; intros a; [reflexivity|]. cbn [seq map combine]. rewrite IH. reflexivity. }
  assert (SE : forall a b, sq_error a b (lagged (path_of n x)) = rsum (map (fun t => (x (t + 1)%nat - (a * x t + b)) ^ 2) (seq 0 n))).
  { intros a b. rewrite LG. unfold sq_error. rewrite map_map. apply rsum_ext. intros t _. cbn [fst snd]. rewrite Nat.add_1_r. reflexivity. }
  assert (Hdiff : exists u w, In u (removelast (path_of n x)) /\ In w (removelast (path_of n x)) /\ u <> w).
  { rewrite RL. apply Classical_Prop.NNPP. intros N. apply Hd. intros a b Ha Hb. apply Classical_Prop.NNPP. intros E. apply N. eauto. }
  assert (B : best_line s i (lagged (path_of n x))) by (destruct U as (s0 & i0 & B & [(_ & -> & ->)|(? & -> & _)]); [exact B|lra]).
  set (rs := residuals_of s i (lagged (path_of n x))) in *. assert (Lr : length rs = n) by (unfold rs, residuals_of; rewrite map_length, LG, map_length, seq_length; auto).
  destruct (ss_pos rs) as (P1 & P2 & P3); [lia|exact Hr|]. set (ss := rsum (map (fun y => (y - rmean rs) * (y - rmean rs)) rs)) in *. rewrite Lr in P2.
  assert (Hne : lagged (path_of n x) <> []) by (rewrite LG; destruct n; [lia|discriminate]).
  assert (Ess : sq_error s i (lagged (path_of n x)) = ss).
  { unfold ss. pose proof (best_residuals s i _ Hne (proj1 B)) as Z. fold rs in Z. rewrite Z. unfold sq_error, rs, residuals_of. rewrite map_map. apply rsum_ext. intros; ring. }
  assert (Pn : 0 < INR n) by (apply lt_0_INR; lia). assert (Pm : 0 < INR (n - 1)) by (apply lt_0_INR; lia).
  set (k := line_mrr s dt). assert (Hln : ln s < 0) by (rewrite <- ln_1; apply ln_increasing; auto). assert (Pk : 0 < k) by (apply Rdiv_lt_0_compat; lra).
  assert (Ek : exp (- (k * dt)) = s) by (unfold k, line_mrr; replace (- (- ln s / dt * dt)) with (ln s) by (field; lra); apply exp_ln; auto).
  assert (Ek2 : exp (- (2 * k * dt)) = s ^ 2) by (replace (- (2 * k * dt)) with (- (k * dt) + - (k * dt)) by ring; rewrite exp_plus, Ek; ring).
  assert (Ps2 : 0 < 1 - s ^ 2) by nra. set (v := sqrt (2 * k * rvar 1 rs / (1 - s ^ 2))). assert (Prad : 0 < 2 * k * rvar 1 rs / (1 - s ^ 2)) by (apply Rdiv_lt_0_compat; [apply Rmult_lt_0_compat; lra|lra]).
  assert (Pv : 0 < v) by (apply sqrt_lt_R0; auto). assert (Ev : v ^ 2 * (1 - s ^ 2) / (2 * k) = ss / INR (n - 1)).
  { unfold v. replace (sqrt (2 * k * rvar 1 rs / (1 - s ^ 2)) ^ 2) with (sqrt (2 * k * rvar 1 rs / (1 - s ^ 2)) * sqrt (2 * k * rvar 1 rs / (1 - s ^ 2))) by ring. rewrite sqrt_sqrt by lra. rewrite P2. field. lra. }
  set (m := i / (1 - s)). assert (Em : m * (1 - s) = i) by (unfold m; field; lra).
  assert (PVAR : forall k' v', 0 < k' -> 0 < v' -> 0 < v' ^ 2 * (1 - exp (- (2 * k' * dt))) / (2 * k')).
  { intros k' v' Hk Hv. assert (exp (- (2 * k' * dt)) < exp 0) by (apply exp_increasing; nra). rewrite exp_0 in *. apply Rdiv_lt_0_compat; [|lra]. apply Rmult_lt_0_compat; [apply pow_lt; auto|lra]. }
  assert (HB : forall m' k' v' j st, 0 < k' -> 0 < v' -> snd (nll infer (ou_nll_np mvn) (mkObj (mkOU (Row [Fin m']) (Row [Fin k']) (Row [Fin v']) None None) j st) (one_column n x) (Some (Fin dt)))
     = Ok (Fin (INR n / 2 * ln (2 * PI * (v' ^ 2 * (1 - exp (- (2 * k' * dt))) / (2 * k'))) + sq_error (exp (- (k' * dt))) (m' * (1 - exp (- (k' * dt)))) (lagged (path_of n x)) / (2 * (v' ^ 2 * (1 - exp (- (2 * k' * dt))) / (2 * k')))))).
  { intros m' k' v' j st Hk Hv. pose proof (C26_ou_nll infer mvn [m'] [k'] [v'] j st (fun t _ => x t) n dt ltac:(cbn; lia) ltac:(left; reflexivity) ltac:(left; reflexivity) ltac:(intros q [<-|[]]; auto) ltac:(intros q [<-|[]]; auto) Hdt) as E. cbn [length fins map] in E.
    etransitivity; [exact E|]. do 2 f_equal. etransitivity; [apply (normal_nll_0 n (v' ^ 2 * (1 - exp (- (2 * k' * dt))) / (2 * k'))); apply PVAR; auto|]. f_equal. f_equal. rewrite SE. apply rsum_ext. intros t _. cbn [pget length Nat.eqb nth]. f_equal. ring. }
  assert (EF : exists st, fit infer (ou_fit_np chol) o (DNp1 (fins (path_of n x))) (Some (Fin dt)) = (mkObj (mkOU (Scal (Fin m)) (Scal (Fin k)) (Row [Fin v]) None None) (o_k o) st, Ok tt)).
  { destruct (ou_fit_col_used (col_vec (fins (path_of n x))) 0 (path_of n x) (col_col_vec _) ltac:(lia)) as (s1 & i1 & U1 & E). destruct (used_line_unique _ _ _ _ _ U1 U) as [-> ->].
    unfold fit, preprocess_fit. cbn [to_numpy2 index_info get_date_time_index nrow ncol col_vec]. rewrite length_fins. destruct (Nat.eqb_spec (length (path_of n x)) 0); [lia|].
    unfold ou_fit_np. cbn [ncol col_vec seq mapM]. rewrite <- (length_fins (path_of n x)). fold (col_vec (fins (path_of n x))). rewrite E. cbn [bind mapM Nat.ltb Nat.leb rev app map snd].
    rewrite mrr_fin, mean_fin, vol_fin by (auto; fold rs; lia). unfold line_mean, line_vol. rewrite (proj2 (reqb_false s 1)) by lra. fold m k rs v. eexists. reflexivity. }
  destruct EF as (st0 & EF). eexists; exists m, k, v; eexists. split; [exact EF|]. split; [reflexivity|]. split; [reflexivity|]. split; [reflexivity|]. split; [exact Pk|]. split; [exact Pv|].
  split; [etransitivity; [|exact (HB m k v (o_k o) st0 Pk Pv)]; unfold nll, one_column; rewrite !preprocess_np2 by (cbn; lia); reflexivity|]. intros m' k' v' j st Hk Hv. eexists. split; [apply HB; auto|]. rewrite Ek, Ek2, Em, Ev, Ess.
  set (a := exp (- (k' * dt))). set (b := m' * (1 - a)). set (var := v' ^ 2 * (1 - exp (- (2 * k' * dt))) / (2 * k')). pose proof (PVAR k' v' Hk Hv) as Pvar. fold var in Pvar.
  set (q := (sq_error a b (lagged (path_of n x)) - ss) / INR n). assert (Hq : 0 <= q) by (apply Rmult_le_pos; [pose proof (proj1 B a b); lra|left; apply Rinv_0_lt_compat; auto]).
  assert (Eq : sq_error a b (lagged (path_of n x)) = ss + INR n * q) by (unfold q; field; lra).
  destruct (nll_min n ss Hn P1 q var Hq Pvar) as [M1 M2]. rewrite Eq. replace (ss / (2 * (ss / INR (n - 1)))) with ((ss + INR n * 0) / (2 * (ss / INR (n - 1)))) by (rewrite Rmult_0_r, Rplus_0_r; reflexivity). split; [exact M1|]. rewrite M2.
  assert (Pq : 0 < INR (n - 1) / INR n) by (apply Rdiv_lt_0_compat; auto). pose proof (sqrt_lt_R0 _ Pq) as Psq. split.
  - intros [E1 E2]. rewrite E1, Rmult_0_r, Rplus_0_r in Eq.
    assert (B' : best_line a b (lagged (path_of n x))) by (apply best_line_differ; [auto|]; intros a' b'; rewrite Eq, <- Ess; apply B).
    destruct (best_line_unique _ _ _ _ _ B B') as [Ea Eb].
    assert (EK : k' = k).
    { assert (X : - (k' * dt) = - (k * dt)) by (apply exp_inv; rewrite Ek; auto). apply (Rmult_eq_reg_r dt); lra. }
    split; [|split; [exact EK|]].
    + unfold m. rewrite Eb. unfold b. rewrite <- Ea. field. lra.
    + subst k'. unfold var in E2. rewrite Ek2 in E2. rewrite <- Ev in E2. apply Rsqr_inj; [lra|apply Rmult_le_pos; lra|]. unfold Rsqr. replace (v * sqrt (INR (n - 1) / INR n) * (v * sqrt (INR (n - 1) / INR n))) with (v ^ 2 * (sqrt (INR (n - 1) / INR n) * sqrt (INR (n - 1) / INR n))) by ring. rewrite sqrt_sqrt by lra.
      assert (PC : 0 < (1 - s ^ 2) / (2 * k)) by (apply Rdiv_lt_0_compat; lra). apply (Rmult_eq_reg_r ((1 - s ^ 2) / (2 * k))); [|lra].
      transitivity (v' ^ 2 * (1 - s ^ 2) / (2 * k)); [field; lra|]. rewrite E2. field. split; lra.
  - intros (-> & -> & ->). assert (Ea : a = s) by exact Ek. assert (Eb : b = i) by (unfold b; rewrite Ea; exact Em). split.
    + unfold q. rewrite Ea, Eb, Ess. field. lra.
    + unfold var. rewrite Ek2, <- Ev. replace ((v * sqrt (INR (n - 1) / INR n)) ^ 2) with (v ^ 2 * (sqrt (INR (n - 1) / INR n) * sqrt (INR (n - 1) / INR n))) by ring. rewrite sqrt_sqrt by lra. field. split; lra.
Qed.
Print Assumptions C105_ou.

(** The gap is positive, so no fit reaches the largest likelihood, and at most 1 / (2 (n - 1)). *)
Theorem C105_gap : forall n, (2 <= n)%nat -> 0 < gap n < / (2 * INR (n - 1)).
Proof. exact gap_bounds. Qed.
Print Assumptions C105_gap.

(** The series 0, 1, 1, 2 meets all hypotheses (for GBM: its exponential). *)
Definition ex_path (t : nat) : R := nth t [0; 1; 1; 2] 0.
Example C105_example :
  ~ all_equal (changes 3 ex_path) /\ ~ all_equal (changes 3 (fun t => ln (exp (ex_path t)))) /\ ~ all_equal (map ex_path (seq 0 3))
  /\ used_line (path_of 3 ex_path) (1 / 2) 1 /\ ~ all_equal (residuals_of (1 / 2) 1 (lagged (path_of 3 ex_path))).
Proof.
  assert (A : ~ all_equal (changes 3 ex_path)).
  { intros E. specialize (E 1 0). assert (1 = 0); [|lra]. apply E; unfold changes, ex_path; cbn; [left; lra|right; left; lra]. }
  split; [exact A|]. split; [|split; [|split]].
  - intros E. apply A. intros a b Ha Hb. apply E; [clear Hb b|clear Ha a]; unfold changes in *; cbn [seq map] in *; rewrite !ln_exp; auto.
  - intros E. specialize (E 0 1). assert (0 = 1); [|lra]. apply E; unfold ex_path; cbn; auto.
  - exact (proj1 C103_example_line).
  - intros E. specialize (E 0 (- (1 / 2))). assert (0 = - (1 / 2)); [|lra]. apply E; unfold path_of, lagged, residuals_of, ex_path; cbn; [left; lra|right; left; lra].
Qed.
