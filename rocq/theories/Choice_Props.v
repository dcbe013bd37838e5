(** Comparing fitted models by their likelihoods (C111). *)
From Coq Require Import Reals Lra Psatz String ZArith List Arith Bool Lia FunctionalExtensionality.
From Verif Require Import Base Num Sums Sim_Model Sim_Spec Sim_Proofs Sim_Fit_Proofs Sim_Fit_Props Sim_Use_Props Feat_Proofs Sim_OU_Props OUFit_Spec OUFit_Props Fit_Nll_Props.
Import ListNotations.
Open Scope R_scope.

(** the series in other units *)
Definition in_units (c : R) (x : nat -> R) (t : nat) : R := c * x t.

Lemma pdf_scale : forall c mu var y, 0 < c -> 0 < var -> ln (normal_pdf (c * mu) (c ^ 2 * var) (c * y)) = ln (normal_pdf mu var y) - ln c.
Proof.
  intros c mu var y Hc Hv. pose proof PI_RGT_0. assert (P : 0 < 2 * PI * var) by (apply Rmult_lt_0_compat; lra).
  assert (E : normal_pdf (c * mu) (c ^ 2 * var) (c * y) = normal_pdf mu var y * / c).
  { unfold normal_pdf. replace ((c * y - c * mu) ^ 2 / (2 * (c ^ 2 * var))) with ((y - mu) ^ 2 / (2 * var)) by (field; lra).
    replace (2 * PI * (c ^ 2 * var)) with ((c * c) * (2 * PI * var)) by ring. rewrite sqrt_mult by nra. rewrite sqrt_square by lra. assert (0 < sqrt (2 * PI * var)) by (apply sqrt_lt_R0; auto). field. lra. }
  rewrite E, ln_mult, ln_Rinv; [ring|auto| |apply Rinv_0_lt_compat; auto]. unfold normal_pdf. apply Rdiv_lt_0_compat; [apply exp_pos|apply sqrt_lt_R0; auto].
Qed.
Lemma nll_scale : forall n c mu var f, 0 < c -> 0 < var ->
  normal_nll n 1 (fun _ => c * mu) (fun _ => c ^ 2 * var) (fun t v => c * f t v) = normal_nll n 1 (fun _ => mu) (fun _ => var) f + INR n * ln c.
Proof.
  intros n c mu var f Hc Hv. unfold normal_nll. rewrite (rsum_ext _ _ (fun t => rsum (map (fun v => ln (normal_pdf mu var (f t v))) (seq 0 1)) + - ln c)).
  - rewrite rsum_plus, rsum_const, seq_length. ring.
  - intros t _. cbn [seq map rsum fold_right]. rewrite pdf_scale by auto. ring.
Qed.
Lemma normal_nll_ext : forall n V mu var f mu' var' f', (forall v, mu v = mu' v) -> (forall v, var v = var' v) -> (forall t v, f t v = f' t v) -> normal_nll n V mu var f = normal_nll n V mu' var' f'.
Proof. intros n V mu var f mu' var' f' H1 H2 H3. replace mu' with mu by (extensionality v; auto). replace var' with var by (extensionality v; auto). replace f' with f by (extensionality t; extensionality v; auto). reflexivity. Qed.

(** nll in other units, for any parameters *)
Lemma bm_nll_units : forall infer mvn n x dt c d v k st k' st', 0 < dt -> 0 < c -> 0 < v ->
  exists l, snd (nll infer (bm_nll_np mvn) (mkObj (mkBM [Fin d] [Fin v] None None) k st) (one_column n x) (Some (Fin dt))) = Ok (Fin l) /\
    snd (nll infer (bm_nll_np mvn) (mkObj (mkBM [Fin (c * d)] [Fin (c * v)] None None) k' st') (one_column n (in_units c x)) (Some (Fin dt))) = Ok (Fin (l + INR n * ln c)).
Proof.
  intros infer mvn n x dt c d v k st k' st' Hdt Hc Hv. assert (Pv : 0 < v ^ 2 * dt) by (apply Rmult_lt_0_compat; auto; apply pow_lt; auto).
  pose proof (C26_bm_nll infer mvn [d] [v] k st (fun t _ => x t) n dt ltac:(cbn; lia) ltac:(left; reflexivity) ltac:(intros s [<-|[]]; auto) Hdt) as E1.
  pose proof (C26_bm_nll infer mvn [c * d] [c * v] k' st' (fun t _ => in_units c x t) n dt ltac:(cbn; lia) ltac:(left; reflexivity) ltac:(intros s [<-|[]]; apply Rmult_lt_0_compat; auto) Hdt) as E2. cbn [length fins map] in E1, E2.
  eexists. split; [exact E1|]. etransitivity; [exact E2|]. do 2 f_equal. transitivity (normal_nll n 1 (fun _ => c * (d * dt)) (fun _ => c ^ 2 * (v ^ 2 * dt)) (fun t w => c * incr (fun t _ => x t) t w)).
  - unfold normal_nll. f_equal. apply rsum_ext. intros t _. apply rsum_ext. intros w Hw. apply in_seq in Hw. assert (w = 0%nat) by lia. subst w. cbn [nth pget length Nat.eqb]. unfold incr, in_units. f_equal. f_equal; ring.
  - rewrite nll_scale by auto. reflexivity.
Qed.
Lemma changes_units : forall n c x, 0 < c -> all_equal (changes n (in_units c x)) -> all_equal (changes n x).
Proof.
  intros n c x Hc H a b Ha Hb. assert (E : c * a = c * b); [|apply Rmult_eq_reg_l in E; [exact E|lra]]. unfold changes in *. apply in_map_iff in Ha. apply in_map_iff in Hb. destruct Ha as (t & <- & Ht), Hb as (u & <- & Hu).
  apply H; apply in_map_iff; [exists t|exists u]; (split; [unfold in_units; ring|auto]).
Qed.

(** BM fitted to prices in other units: the likelihood is that of the prices, so minus its logarithm grows by n ln c. *)
Theorem C111_bm_units : forall infer chol mvn (o : obj bmpar) n x dt c, (2 <= n)%nat -> 0 < dt -> 0 < c -> ~ all_equal (changes n x) ->
  exists f f' L, fit infer (bm_fit_np chol) o (one_column n x) (Some (Fin dt)) = (f, Ok tt) /\ fit infer (bm_fit_np chol) o (one_column n (in_units c x)) (Some (Fin dt)) = (f', Ok tt) /\
    snd (nll infer (bm_nll_np mvn) f (one_column n x) (Some (Fin dt))) = Ok (Fin L) /\
    snd (nll infer (bm_nll_np mvn) f' (one_column n (in_units c x)) (Some (Fin dt))) = Ok (Fin (L + INR n * ln c)).
Proof.
  intros infer chol mvn o n x dt c Hn Hdt Hc Hne. assert (Hne' : ~ all_equal (changes n (in_units c x))) by (intros E; apply Hne; revert E; now apply changes_units).
  destruct (C105_bm infer chol mvn o n x dt Hn Hdt Hne) as (f & d & v & L & E1 & _ & _ & Pv & E2 & M). destruct (C105_bm infer chol mvn o n (in_units c x) dt Hn Hdt Hne') as (f' & d' & v' & L' & E1' & _ & _ & Pv' & E2' & M').
  assert (Q : 0 < sqrt (INR (n - 1) / INR n)) by (apply sqrt_lt_R0; apply Rdiv_lt_0_compat; apply lt_0_INR; lia). set (q := sqrt (INR (n - 1) / INR n)) in *.
  exists f, f', L. split; [exact E1|]. split; [exact E1'|]. split; [exact E2|]. rewrite E2'. do 2 f_equal.
  assert (Le : L' <= L + INR n * ln c).
  { destruct (bm_nll_units infer mvn n x dt c d (v * q) NaN unfitted NaN unfitted Hdt Hc ltac:(nra)) as (l & A & B). destruct (M d (v * q) NaN unfitted ltac:(nra)) as (l1 & A1 & _ & A2). rewrite A in A1. injection A1 as <-.
    rewrite (proj2 A2 (conj eq_refl eq_refl)) in B. destruct (M' (c * d) (c * (v * q)) NaN unfitted ltac:(apply Rmult_lt_0_compat; nra)) as (l2 & B1 & B2 & _). rewrite B in B1. injection B1 as <-. lra. }
  assert (Ge : L + INR n * ln c <= L').
  { assert (Pw : 0 < v' * q / c) by (apply Rdiv_lt_0_compat; nra). destruct (bm_nll_units infer mvn n x dt c (d' / c) (v' * q / c) NaN unfitted NaN unfitted Hdt Hc Pw) as (l & A & B). destruct (M (d' / c) (v' * q / c) NaN unfitted Pw) as (l1 & A1 & A2 & _). rewrite A in A1. injection A1 as <-.
    replace (c * (d' / c)) with d' in B by (field; lra). replace (c * (v' * q / c)) with (v' * q) in B by (field; lra). destruct (M' d' (v' * q) NaN unfitted ltac:(nra)) as (l2 & B1 & _ & B2). rewrite B in B1. injection B1 as B1. pose proof (proj2 B2 (conj eq_refl eq_refl)). lra. }
  lra.
Qed.
Print Assumptions C111_bm_units.

(** GBM: the same model and the same nll in all units, because it is the likelihood of the log returns. *)
Theorem C111_gbm_units : forall infer chol mvn (o : obj bmpar) n x dt c, (2 <= n)%nat -> 0 < dt -> 0 < c -> (forall t, 0 < x t) -> ~ all_equal (changes n (fun t => ln (x t))) ->
  exists f f' L, fit infer (gbm_fit_np chol) o (one_column n x) (Some (Fin dt)) = (f, Ok tt) /\ fit infer (gbm_fit_np chol) o (one_column n (in_units c x)) (Some (Fin dt)) = (f', Ok tt) /\ o_par f' = o_par f /\
    snd (nll infer (gbm_nll_np mvn) f (one_column n x) (Some (Fin dt))) = Ok (Fin L) /\ snd (nll infer (gbm_nll_np mvn) f' (one_column n (in_units c x)) (Some (Fin dt))) = Ok (Fin L).
Proof.
  intros infer chol mvn o n x dt c Hn Hdt Hc Hx Hne.
  assert (EL : logret (farr (n + 1) 1 (fun t _ => in_units c x t)) = logret (farr (n + 1) 1 (fun t _ => x t))).
  { unfold logret, farr, in_units. cbn [nrow ncol at2]. f_equal. extensionality t. extensionality v. pose proof (Hx t). pose proof (Hx (S t)). assert (0 < c * x t) by nra. rewrite !ndiv_fin by lra. do 2 f_equal. field. lra. }
  destruct (C105_gbm infer chol mvn o n x dt Hn Hdt Hx Hne) as (f & d & v & L & E1 & _ & _ & Pv & E2 & _).
  destruct (gbm_fit_np chol (o_par o) (farr (n + 1) 1 (fun t _ => x t)) (Fin dt)) as [p r] eqn:EP.
  assert (EP' : gbm_fit_np chol (o_par o) (farr (n + 1) 1 (fun t _ => in_units c x t)) (Fin dt) = (p, r)) by (unfold gbm_fit_np in *; rewrite EL; exact EP).
  unfold one_column in *. unfold fit in *. rewrite preprocess_np2 in E1 by (cbn; lia). rewrite EP in E1. rewrite !preprocess_np2 by (cbn; lia). rewrite EP, EP'. injection E1 as Ef Er. subst r.
  eexists; eexists; exists L. split; [reflexivity|]. split; [reflexivity|]. split; [reflexivity|]. rewrite <- Ef in E2. split; [exact E2|].
  rewrite <- E2. unfold nll. rewrite !preprocess_np2 by (cbn; lia). cbn [o_par snd]. unfold gbm_nll_np. rewrite EL. reflexivity.
Qed.
Print Assumptions C111_gbm_units.

(** OU: as BM *)
Lemma ou_nll_units : forall infer mvn n x dt c m k v j st j' st', 0 < dt -> 0 < c -> 0 < k -> 0 < v ->
  exists l, snd (nll infer (ou_nll_np mvn) (mkObj (mkOU (Row [Fin m]) (Row [Fin k]) (Row [Fin v]) None None) j st) (one_column n x) (Some (Fin dt))) = Ok (Fin l) /\
    snd (nll infer (ou_nll_np mvn) (mkObj (mkOU (Row [Fin (c * m)]) (Row [Fin k]) (Row [Fin (c * v)]) None None) j' st') (one_column n (in_units c x)) (Some (Fin dt))) = Ok (Fin (l + INR n * ln c)).
Proof.
  intros infer mvn n x dt c m k v j st j' st' Hdt Hc Hk Hv. set (var := v ^ 2 * (1 - exp (- (2 * k * dt))) / (2 * k)).
  assert (Pv : 0 < var). { assert (exp (- (2 * k * dt)) < exp 0) by (apply exp_increasing; nra). rewrite exp_0 in *. apply Rdiv_lt_0_compat; [|lra]. apply Rmult_lt_0_compat; [apply pow_lt; auto|lra]. }
  pose proof (C26_ou_nll infer mvn [m] [k] [v] j st (fun t _ => x t) n dt ltac:(cbn; lia) ltac:(left; reflexivity) ltac:(left; reflexivity) ltac:(intros q [<-|[]]; auto) ltac:(intros q [<-|[]]; auto) Hdt) as E1.
  pose proof (C26_ou_nll infer mvn [c * m] [k] [c * v] j' st' (fun t _ => in_units c x t) n dt ltac:(cbn; lia) ltac:(left; reflexivity) ltac:(left; reflexivity) ltac:(intros q [<-|[]]; auto) ltac:(intros q [<-|[]]; apply Rmult_lt_0_compat; auto) Hdt) as E2.
  cbn [length fins map] in E1, E2. eexists. split; [exact E1|]. etransitivity; [exact E2|]. do 2 f_equal.
  transitivity (normal_nll n 1 (fun _ => c * 0) (fun _ => c ^ 2 * var) (fun t w => c * (x (t + 1)%nat - (m + (x t - m) * exp (- (k * dt)))))).
  - unfold normal_nll. f_equal. apply rsum_ext. intros t _. apply rsum_ext. intros w Hw. apply in_seq in Hw. assert (w = 0%nat) by lia. subst w. cbn [nth pget length Nat.eqb]. unfold in_units. f_equal. f_equal; try ring. unfold var. field. lra.
  - rewrite (nll_scale n c 0 var (fun t _ => x (t + 1)%nat - (m + (x t - m) * exp (- (k * dt))))) by auto. reflexivity.
Qed.
Theorem C111_ou_units : forall infer chol mvn (o : obj oupar) n x dt c s i, (2 <= n)%nat -> 0 < dt -> 0 < c -> ~ all_equal (map x (seq 0 n)) ->
  used_line (path_of n x) s i -> 1 / 100000000 < s -> s < 1 -> ~ all_equal (residuals_of s i (lagged (path_of n x))) ->
  exists f f' L, fit infer (ou_fit_np chol) o (DNp1 (fins (path_of n x))) (Some (Fin dt)) = (f, Ok tt) /\ fit infer (ou_fit_np chol) o (DNp1 (fins (path_of n (in_units c x)))) (Some (Fin dt)) = (f', Ok tt) /\
    snd (nll infer (ou_nll_np mvn) f (one_column n x) (Some (Fin dt))) = Ok (Fin L) /\
    snd (nll infer (ou_nll_np mvn) f' (one_column n (in_units c x)) (Some (Fin dt))) = Ok (Fin (L + INR n * ln c)).
Proof.
  intros infer chol mvn o n x dt c s i Hn Hdt Hc Hd U Ht H1 Hr.
  assert (Hd' : ~ all_equal (map (in_units c x) (seq 0 n))).
  { intros E. apply Hd. intros a b Ha Hb. apply in_map_iff in Ha. apply in_map_iff in Hb. destruct Ha as (t & <- & Ha), Hb as (u & <- & Hb). apply (Rmult_eq_reg_l c); [|lra]. apply (E (in_units c x t) (in_units c x u)); apply in_map; auto. }
  assert (Pt : path_of n (in_units c x) = rescale c 0 (path_of n x)) by (unfold path_of, rescale, in_units; rewrite map_map; apply map_ext; intros; ring).
  assert (Lp : length (path_of n x) = (n + 1)%nat) by (unfold path_of; rewrite map_length, seq_length; auto).
  assert (RL : removelast (path_of n x) = map x (seq 0 n)) by apply removelast_seq.
  assert (Hdiff : exists u w, In u (removelast (path_of n x)) /\ In w (removelast (path_of n x)) /\ u <> w).
  { rewrite RL. apply Classical_Prop.NNPP. intros N. apply Hd. intros a b Ha Hb. apply Classical_Prop.NNPP. intros E. apply N. eauto. }
  destruct (used_line_rescale (path_of n x) c 0 s i ltac:(lra) ltac:(lia) Hdiff U) as [U' _]. specialize (U' Ht). rewrite <- Pt in U'. replace (c * i + 0 * (1 - s)) with (c * i) in U' by ring.
  assert (Hr' : ~ all_equal (residuals_of s (c * i) (lagged (path_of n (in_units c x))))).
  { intros E. apply Hr. intros a b Ha Hb. apply (Rmult_eq_reg_l c); [|lra]. unfold residuals_of in *. rewrite Pt, lagged_rescale, map_map in E. cbn [fst snd] in E. apply in_map_iff in Ha. apply in_map_iff in Hb. destruct Ha as (p & <- & Ha), Hb as (q & <- & Hb).
    apply E; apply in_map_iff; [exists p|exists q]; (split; [ring|auto]). }
  destruct (C105_ou infer chol mvn o n x dt s i Hn Hdt Hd U Ht H1 Hr) as (f & m & k & v & L & E1 & _ & _ & _ & Pk & Pv & E2 & M).
  destruct (C105_ou infer chol mvn o n (in_units c x) dt s (c * i) Hn Hdt Hd' U' Ht H1 Hr') as (f' & m' & k' & v' & L' & E1' & _ & _ & _ & Pk' & Pv' & E2' & M').
  assert (Q : 0 < sqrt (INR (n - 1) / INR n)) by (apply sqrt_lt_R0; apply Rdiv_lt_0_compat; apply lt_0_INR; lia). set (q := sqrt (INR (n - 1) / INR n)) in *.
  exists f, f', L. split; [exact E1|]. split; [exact E1'|]. split; [exact E2|]. rewrite E2'. do 2 f_equal.
  assert (Le : L' <= L + INR n * ln c).
  { destruct (ou_nll_units infer mvn n x dt c m k (v * q) NaN unfitted NaN unfitted Hdt Hc Pk ltac:(nra)) as (l & A & B). destruct (M m k (v * q) NaN unfitted Pk ltac:(nra)) as (l1 & A1 & _ & A2). rewrite A in A1. injection A1 as <-.
    rewrite (proj2 A2 (conj eq_refl (conj eq_refl eq_refl))) in B. destruct (M' (c * m) k (c * (v * q)) NaN unfitted Pk ltac:(apply Rmult_lt_0_compat; nra)) as (l2 & B1 & B2 & _). rewrite B in B1. injection B1 as <-. lra. }
  assert (Ge : L + INR n * ln c <= L').
  { assert (Pw : 0 < v' * q / c) by (apply Rdiv_lt_0_compat; nra). destruct (ou_nll_units infer mvn n x dt c (m' / c) k' (v' * q / c) NaN unfitted NaN unfitted Hdt Hc Pk' Pw) as (l & A & B). destruct (M (m' / c) k' (v' * q / c) NaN unfitted Pk' Pw) as (l1 & A1 & A2 & _). rewrite A in A1. injection A1 as <-.
    replace (c * (m' / c)) with m' in B by (field; lra). replace (c * (v' * q / c)) with (v' * q) in B by (field; lra). destruct (M' m' k' (v' * q) NaN unfitted Pk' ltac:(nra)) as (l2 & B1 & _ & B2). rewrite B in B1. injection B1 as B1. pose proof (proj2 B2 (conj eq_refl (conj eq_refl eq_refl))). lra. }
  lra.
Qed.
Print Assumptions C111_ou_units.

(** So the comparison of BM with GBM by aic or bic depends on the units of the prices: for every series of positive prices (with changes and log returns that are not all equal) there are units in which
    BM has the smaller values, and units in which GBM has. *)
Theorem C111_choice_depends_on_units : forall infer chol mvn db vb cb dg vg cg ob og n x dt, bm_new chol db vb cb = Ok ob -> bm_new chol dg vg cg = Ok og ->
  (2 <= n)%nat -> 0 < dt -> (forall t, 0 < x t) -> ~ all_equal (changes n x) -> ~ all_equal (changes n (fun t => ln (x t))) ->
  let compared c (less : R -> R -> Prop) := exists fb fg ab ag bb bg,
    fit infer (bm_fit_np chol) ob (one_column n (in_units c x)) (Some (Fin dt)) = (fb, Ok tt) /\ fit infer (gbm_fit_np chol) og (one_column n (in_units c x)) (Some (Fin dt)) = (fg, Ok tt) /\
    snd (aic infer (bm_nll_np mvn) fb (one_column n (in_units c x)) (Some (Fin dt))) = Ok (Fin ab) /\ snd (aic infer (gbm_nll_np mvn) fg (one_column n (in_units c x)) (Some (Fin dt))) = Ok (Fin ag) /\ less ab ag /\
    snd (bic infer (bm_nll_np mvn) fb (one_column n (in_units c x)) (Some (Fin dt))) = Ok (Fin bb) /\ snd (bic infer (gbm_nll_np mvn) fg (one_column n (in_units c x)) (Some (Fin dt))) = Ok (Fin bg) /\ less bb bg in
  (exists c, 0 < c /\ compared c Rlt) /\ (exists c, 0 < c /\ compared c Rgt).
Proof.
  intros infer chol mvn db vb cb dg vg cg ob og n x dt Hb Hg Hn Hdt Hx Hne Hlne compared. assert (Pn : 0 < INR n) by (apply lt_0_INR; lia). assert (Pn1 : 0 < INR (n + 1)) by (apply lt_0_INR; lia).
  destruct (C111_bm_units infer chol mvn ob n x dt 1 Hn Hdt ltac:(lra) Hne) as (f1 & _ & Lb & Fb & _ & Nb & _). destruct (C111_gbm_units infer chol mvn og n x dt 1 Hn Hdt ltac:(lra) Hx Hlne) as (f2 & _ & Lg & Fg & _ & _ & Ng & _).
  assert (K : forall c (less : R -> R -> Prop), 0 < c -> less (2 * 2 + 2 * INR (n + 1) * (Lb + INR n * ln c)) (2 * 2 + 2 * INR (n + 1) * Lg) -> less (2 * 2 * ln (INR (n + 1)) + 2 * INR (n + 1) * (Lb + INR n * ln c)) (2 * 2 * ln (INR (n + 1)) + 2 * INR (n + 1) * Lg) -> compared c less).
  { intros c less Hc H1 H2. destruct (C111_bm_units infer chol mvn ob n x dt c Hn Hdt Hc Hne) as (f1' & fb & Lb' & Fb1 & Fb2 & Nb1 & Nb2). rewrite Fb in Fb1. injection Fb1 as <-. rewrite Nb in Nb1. injection Nb1 as <-.
    destruct (C111_gbm_units infer chol mvn og n x dt c Hn Hdt Hc Hx Hlne) as (f2' & fg & Lg' & Fg1 & Fg2 & _ & Ng1 & Ng2). rewrite Fg in Fg1. injection Fg1 as <-. rewrite Ng in Ng1. injection Ng1 as <-.
    assert (Ub : used infer (bm_fit_np chol) (bm_nll_np mvn) ob fb) by (replace fb with (fst (fit infer (bm_fit_np chol) ob (one_column n (in_units c x)) (Some (Fin dt)))) by (rewrite Fb2; reflexivity); apply used_fit, used_new).
    assert (Ug : used infer (gbm_fit_np chol) (gbm_nll_np mvn) og fg) by (replace fg with (fst (fit infer (gbm_fit_np chol) og (one_column n (in_units c x)) (Some (Fin dt)))) by (rewrite Fg2; reflexivity); apply used_fit, used_new).
    destruct (C30_bm_aic_bic chol db vb cb ob infer _ _ fb (one_column n (in_units c x)) (Some (Fin dt)) (n + 1)%nat _ Hb Ub eq_refl ltac:(lia) Nb2) as [A1 B1].
    destruct (C30_bm_aic_bic chol dg vg cg og infer _ _ fg (one_column n (in_units c x)) (Some (Fin dt)) (n + 1)%nat _ Hg Ug eq_refl ltac:(lia) Ng2) as [A2 B2].
    exists fb, fg. do 4 eexists. split; [exact Fb2|]. split; [exact Fg2|]. split; [exact A1|]. split; [exact A2|]. split; [exact H1|]. split; [exact B1|]. split; [exact B2|exact H2]. }
  split.
  - exists (exp ((Lg - Lb - 1) / INR n)). split; [apply exp_pos|]. assert (E : Lb + INR n * ln (exp ((Lg - Lb - 1) / INR n)) = Lg - 1) by (rewrite ln_exp; field; lra). apply K; [apply exp_pos|rewrite E; nra|rewrite E; nra].
  - exists (exp ((Lg - Lb + 1) / INR n)). split; [apply exp_pos|]. assert (E : Lb + INR n * ln (exp ((Lg - Lb + 1) / INR n)) = Lg + 1) by (rewrite ln_exp; field; lra). apply K; [apply exp_pos|rewrite E; unfold Rgt; nra|rewrite E; unfold Rgt; nra].
Qed.
Print Assumptions C111_choice_depends_on_units.

(** The prices 1, e, e, e^2 meet the hypotheses; the path 0, 1, 1, 2 those of [C111_ou_units] (see [C105_example]). *)
Example C111_example : (forall t, 0 < exp (ex_path t)) /\ ~ all_equal (changes 3 (fun t => exp (ex_path t))) /\ ~ all_equal (changes 3 (fun t => ln (exp (ex_path t))))
  /\ forall infer chol mvn, exists c fb fg ab ag, 0 < c /\
     fit infer (bm_fit_np chol) (mkObj (mkBM [Fin 0] [Fin 1] None None) (Fin 2) unfitted) (one_column 3 (in_units c (fun t => exp (ex_path t)))) (Some (Fin 1)) = (fb, Ok tt) /\
     fit infer (gbm_fit_np chol) (mkObj (mkBM [Fin 0] [Fin 1] None None) (Fin 2) unfitted) (one_column 3 (in_units c (fun t => exp (ex_path t)))) (Some (Fin 1)) = (fg, Ok tt) /\
     snd (aic infer (bm_nll_np mvn) fb (one_column 3 (in_units c (fun t => exp (ex_path t)))) (Some (Fin 1))) = Ok (Fin ab) /\
     snd (aic infer (gbm_nll_np mvn) fg (one_column 3 (in_units c (fun t => exp (ex_path t)))) (Some (Fin 1))) = Ok (Fin ag) /\ ab < ag.
Proof.
  assert (A : forall t, 0 < exp (ex_path t)) by (intros; apply exp_pos). assert (B : ~ all_equal (changes 3 (fun t => exp (ex_path t)))).
  { intros E. specialize (E (exp 1 - exp 0) (exp 1 - exp 1)). pose proof (exp_increasing 0 1 ltac:(lra)). assert (exp 1 - exp 0 = exp 1 - exp 1); [|lra]. apply E; unfold changes, ex_path; cbn; auto. }
  pose proof (proj1 (proj2 C105_example)) as C. split; [exact A|]. split; [exact B|]. split; [exact C|]. intros infer chol mvn.
  assert (N : bm_new chol (DScalar (Fin 0)) (DScalar (Fin 1)) None = Ok (mkObj (mkBM [Fin 0] [Fin 1] None None) (Fin 2) unfitted)).
  { unfold bm_new. cbn. do 3 f_equal. lra. }
  destruct (C111_choice_depends_on_units infer chol mvn _ _ _ _ _ _ _ _ 3 _ 1 N N ltac:(lia) ltac:(lra) A B C) as [(c & Hc & fb & fg & ab & ag & bb & bg & H1 & H2 & H3 & H4 & H5 & _) _].
  exists c, fb, fg, ab, ag. auto 10.
Qed.
