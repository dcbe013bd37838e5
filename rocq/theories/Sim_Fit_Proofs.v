(** Lemmas about fitting and scoring. *)
From Coq Require Import Reals Lra String ZArith List Arith Bool Lia.
From Verif Require Import Base Num Sim_Model Sim_Spec Sim_Proofs.
Import ListNotations.
Open Scope R_scope.

(* ------------------------------------------------------------------ *)
(** ** Moments *)

Lemma map_neq_nil : forall A B (f : A -> B) l, l <> [] -> map f l <> [].
Proof. destruct l; simpl; congruence. Qed.
Lemma INR_length_pos : forall A (l : list A), l <> [] -> 0 < INR (length l).
Proof. intros A l H. apply lt_0_INR. destruct l; simpl; [congruence|lia]. Qed.

Lemma rmean_affine : forall A (f : A -> R) a b l, l <> [] -> rmean (map (fun x => a + b * f x) l) = a + b * rmean (map f l).
Proof.
  intros A f a b l H. unfold rmean. rewrite !map_length, rsum_plus, rsum_const, rsum_scal.
  pose proof (INR_length_pos _ l H). field. lra.
Qed.
Lemma rvar_affine : forall A (f : A -> R) a b l d, l <> [] -> rvar d (map (fun x => a + b * f x) l) = b * b * rvar d (map f l).
Proof.
  intros A f a b l d H. unfold rvar. rewrite rmean_affine by auto. rewrite !map_map, !map_length.
  rewrite (rsum_ext _ _ (fun x => b * b * ((f x - rmean (map f l)) * (f x - rmean (map f l))))) by (intros; ring).
  rewrite (rsum_scal _ (fun x => (f x - rmean (map f l)) * (f x - rmean (map f l)))). unfold Rdiv. ring.
Qed.

(* ------------------------------------------------------------------ *)
(** ** Fitting BM and GBM *)

Lemma fit_changes_spec : forall chol m dx dt (f : nat -> nat -> R),
  0 < dt -> (2 <= nrow dx)%nat ->
  (forall t v, (t < nrow dx)%nat -> (v < ncol dx)%nat -> at2 dx t v = Fin (f t v)) ->
  let r := fit_changes chol m dx (Fin dt) in
  bm_drift (fst r) = fins (map (fun v => rmean (map (fun t => f t v) (seq 0 (nrow dx))) / dt) (seq 0 (ncol dx)))
  /\ bm_vol (fst r) = fins (map (fun v => sqrt (rvar 1 (map (fun t => f t v) (seq 0 (nrow dx)))) / sqrt dt) (seq 0 (ncol dx)))
  /\ ((ncol dx <= 1)%nat -> snd r = Ok tt /\ bm_cor (fst r) = None /\ bm_L (fst r) = None).
Proof.
  intros chol m dx dt f Hdt Hn Hf r.
  assert (Hcol : forall v, (v < ncol dx)%nat -> col dx v = fins (map (fun t => f t v) (seq 0 (nrow dx)))).
  { intros v Hv. unfold col, fins. rewrite map_map. apply map_ext_in. intros t Ht. apply in_seq in Ht. apply Hf; lia. }
  assert (Hs : 0 < sqrt dt) by (apply sqrt_lt_R0; auto).
  set (D := map (fun c => ndiv (nmean c) (Fin dt)) (map (col dx) (seq 0 (ncol dx)))).
  set (W := map (fun c => ndiv (nstd 1 c) (nsqrt (Fin dt))) (map (col dx) (seq 0 (ncol dx)))).
  assert (HD : D = fins (map (fun v => rmean (map (fun t => f t v) (seq 0 (nrow dx))) / dt) (seq 0 (ncol dx)))).
  { unfold D, fins. rewrite !map_map. apply map_ext_in. intros v Hv. apply in_seq in Hv. rewrite Hcol by lia.
    rewrite nmean_fin. 2:{ apply map_neq_nil. destruct (nrow dx); [lia|simpl; congruence]. } apply ndiv_fin. lra. }
  assert (HW : W = fins (map (fun v => sqrt (rvar 1 (map (fun t => f t v) (seq 0 (nrow dx)))) / sqrt dt) (seq 0 (ncol dx)))).
  { unfold W, fins. rewrite !map_map. apply map_ext_in. intros v Hv. apply in_seq in Hv. rewrite Hcol by lia.
    rewrite nstd_fin by (rewrite map_length, seq_length; lia). rewrite nsqrt_fin by lra. apply ndiv_fin. lra. }
  rewrite <- HD, <- HW. subst r. unfold fit_changes. fold D W.
  destruct (Nat.ltb_spec 1 (ncol dx)).
  - destruct (existsb _ W); [cbn; repeat split; auto; lia|].
    destruct (chol (corrcoef dx)); cbn; repeat split; auto; lia.
  - cbn. auto.
Qed.

(* ------------------------------------------------------------------ *)
(** ** fit, nll, aic, bic: bookkeeping *)

Lemma preprocess_np2 : forall infer st a dt, (0 < nrow a)%nat ->
  preprocess_fit infer st (DNp2 a) (Some dt)
  = (mkFit COther (Some (nrow a)) (Some (ncol a)) no_index None (Some dt) (Some (row a 0)) (Some (row a (nrow a - 1))), Ok (a, dt)).
Proof.
  intros infer st a dt H. unfold preprocess_fit. cbn. destruct (Nat.eqb_spec (nrow a) 0); [lia|]. reflexivity.
Qed.

(* ------------------------------------------------------------------ *)
(** ** Least squares *)

Definition ssq (a b : R) (pts : list (R * R)) : R := rsum (map (fun p => (snd p - (a * fst p + b)) * (snd p - (a * fst p + b))) pts).

Lemma map_fst_combine : forall A B (l : list A) (l' : list B), length l = length l' -> map fst (combine l l') = l.
Proof. induction l; destruct l'; simpl; intros; try lia; auto. rewrite IHl by lia. reflexivity. Qed.
Lemma map_snd_combine : forall A B (l : list A) (l' : list B), length l = length l' -> map snd (combine l l') = l'.
Proof. induction l; destruct l'; simpl; intros; try lia; auto. rewrite IHl by lia. reflexivity. Qed.

Lemma rsum_minus_mean : forall A (f : A -> R) l, l <> [] -> rsum (map (fun x => f x - rmean (map f l)) l) = 0.
Proof.
  intros A f l H. rewrite (rsum_ext _ _ (fun x => f x + (- rmean (map f l)))) by (intros; ring).
  rewrite rsum_plus, rsum_const. unfold rmean. rewrite map_length. pose proof (INR_length_pos _ l H). field. lra.
Qed.

(** normal equations imply minimality *)
Lemma lstsq_min : forall pts (s i a b : R), pts <> [] ->
  let mx := rmean (map fst pts) in let my := rmean (map snd pts) in
  let sxx := rsum (map (fun p => (fst p - mx) * (fst p - mx)) pts) in
  let sxy := rsum (map (fun p => (fst p - mx) * (snd p - my)) pts) in
  s * sxx = sxy -> i = my - s * mx -> ssq s i pts <= ssq a b pts.
Proof.
  intros pts s i a b Hne mx my sxx sxy Hs Hi. unfold ssq.
  pose proof (rsum_minus_mean _ fst pts Hne) as Zx. fold mx in Zx.
  pose proof (rsum_minus_mean _ snd pts Hne) as Zy. fold my in Zy.
  set (da := a - s). set (e := b + a * mx - my).
  assert (E : rsum (map (fun p => (snd p - (a * fst p + b)) * (snd p - (a * fst p + b))) pts)
     = rsum (map (fun p => (snd p - (s * fst p + i)) * (snd p - (s * fst p + i))) pts)
       + rsum (map (fun p => (da * (fst p - mx) + e) * (da * (fst p - mx) + e)) pts)).
  { rewrite (rsum_ext _ (fun p => (snd p - (a * fst p + b)) * (snd p - (a * fst p + b)))
       (fun p => ((snd p - (s * fst p + i)) * (snd p - (s * fst p + i)) + (da * (fst p - mx) + e) * (da * (fst p - mx) + e))
                 + (((-2 * da) * ((fst p - mx) * (snd p - my)) + (2 * da * s) * ((fst p - mx) * (fst p - mx)))
                    + ((-2 * e) * (snd p - my) + (2 * e * s) * (fst p - mx))))).
    2:{ intros p _. subst i da e. ring. }
    rewrite !rsum_plus, !rsum_scal. rewrite Zx, Zy. fold sxy. fold sxx. rewrite <- Hs. ring. }
  rewrite E. assert (0 <= rsum (map (fun p => (da * (fst p - mx) + e) * (da * (fst p - mx) + e)) pts)).
  { apply rsum_nonneg. intros x Hx. apply in_map_iff in Hx as (p & <- & _). apply Rle_0_sqr. }
  lra.
Qed.

Lemma map_real_of_fins : forall l, map real_of (fins l) = l.
Proof. intros l. unfold fins. rewrite map_map. apply map_id. Qed.
Lemma forallb_fins : forall l, forallb is_fin (fins l) = true.
Proof. induction l; simpl; auto. Qed.

Lemma sxx_zero_const : forall x, rsum (map (fun a => (a - rmean x) * (a - rmean x)) x) = 0 -> forall a, In a x -> a = rmean x.
Proof.
  intros x. generalize (rmean x) as m. intros m H a Ha. induction x as [|y l IH]; [contradiction|].
  simpl in H. assert (0 <= (y - m) * (y - m)) by apply Rle_0_sqr.
  assert (0 <= rsum (map (fun a => (a - m) * (a - m)) l)).
  { apply rsum_nonneg. intros x Hx. apply in_map_iff in Hx as (q & <- & _). apply Rle_0_sqr. }
  destruct Ha as [<-|Ha]; [|apply IH; auto; lra].
  assert (E : (y - m) * (y - m) = 0) by lra. apply Rmult_integral in E. lra.
Qed.

(** exactly linear data *)
Lemma lstsq_exact : forall x s i, (exists a b, In a x /\ In b x /\ a <> b) ->
  lstsq_line (fins x) (fins (map (fun a => s * a + i) x)) = Ok (Fin s, Fin i).
Proof.
  intros x s i (a & b & Ha & Hb & Hab). unfold lstsq_line. rewrite !forallb_fins, !map_real_of_fins. cbn [andb].
  assert (Hne : x <> []) by (intros ->; contradiction).
  set (mx := rmean x).
  assert (Em : rmean (map (fun a => s * a + i) x) = s * mx + i).
  { rewrite (map_ext _ (fun a => i + s * a)) by (intros; ring). rewrite rmean_affine by auto. rewrite map_id. fold mx. ring. }
  rewrite Em.
  assert (Es : rsum (map (fun p => (fst p - mx) * (snd p - (s * mx + i))) (combine x (map (fun a => s * a + i) x)))
     = s * rsum (map (fun a => (a - mx) * (a - mx)) x)).
  { rewrite <- rsum_scal. clear. generalize mx as m. intros m. f_equal. induction x; simpl; auto. f_equal; [ring|exact IHx]. }
  rewrite Es. set (q := rsum (map (fun a => (a - mx) * (a - mx)) x)) in *.
  assert (Hq : q <> 0).
  { intros E. apply Hab. rewrite (sxx_zero_const x E a Ha), (sxx_zero_const x E b Hb). reflexivity. }
  rewrite (proj2 (reqb_false q 0)) by auto. f_equal. f_equal; f_equal; field; auto.
Qed.

(* ------------------------------------------------------------------ *)
(** ** Likelihoods *)


Lemma norm_logpdf_real : forall mu s x, 0 < s -> norm_logpdf (Fin mu) (Fin s) (Fin x) = Fin (ln (normal_pdf mu (s * s) x)).
Proof.
  intros mu s x Hs. unfold norm_logpdf, ngtb, nltb. rewrite (proj2 (rltb_true 0 s)) by auto.
  rewrite nsub_fin, ndiv_fin by lra. unfold nsqr. cbn [nmul]. rewrite ndiv_fin by lra. cbn [nneg].
  pose proof PI_RGT_0. assert (0 < 2 * PI) by lra. assert (0 < sqrt (2 * PI)) by (apply sqrt_lt_R0; lra).
  rewrite nsqrt_fin by lra. rewrite !nlog_fin by auto. rewrite !nsub_fin. f_equal.
  unfold normal_pdf. rewrite (sqrt_mult (2 * PI) (s * s)), (sqrt_square s) by nra.
  assert (E : forall a b, 0 < b -> ln (exp a / b) = a - ln b).
  { intros a b Hb. unfold Rdiv. rewrite ln_mult by (try apply exp_pos; apply Rinv_0_lt_compat; auto).
    rewrite ln_Rinv, ln_exp by auto. ring. }
  rewrite E by nra. rewrite ln_mult by auto. field. lra.
Qed.

Lemma nll_indep_real : forall n V mean std mu s dx f, (0 < V)%nat ->
  nrow dx = n -> ncol dx = V -> perV mean V -> perV std V ->
  (forall t v, (t < n)%nat -> (v < V)%nat -> at2 dx t v = Fin (f t v)) ->
  (forall v, (v < V)%nat -> bget mean v = Fin (mu v) /\ bget std v = Fin (s v) /\ 0 < s v) ->
  nll_indep mean std dx = Ok (Fin (normal_nll n V mu (fun v => s v * s v) f)).
Proof.
  intros n V mean std mu s dx f HV Hn Hc Hm Hs Hf Hb. unfold nll_indep. rewrite Hc, Hn.
  assert (E : Nat.eqb (length mean) (length std) || Nat.eqb (length mean) 1 || Nat.eqb (length std) 1 = true).
  { destruct Hm as [Hm|Hm], Hs as [Hs|Hs]; rewrite Hm, Hs, ?Nat.eqb_refl; simpl; auto with bool. }
  rewrite !bfits_perV, E by auto. cbn [orb andb negb].
  assert (W : Nat.max V (Nat.max (length mean) (length std)) = V) by (destruct Hm as [Hm|Hm], Hs as [Hs|Hs]; rewrite Hm, Hs; lia).
  rewrite W. f_equal. unfold normal_nll.
  assert (I : map (fun t => nsum (map (fun j => norm_logpdf (bget mean j) (bget std j) (at2 dx t (if Nat.eqb V 1 then O else j))) (seq 0 V))) (seq 0 n)
    = fins (map (fun t => rsum (map (fun v => ln (normal_pdf (mu v) (s v * s v) (f t v))) (seq 0 V))) (seq 0 n))).
  { unfold fins. rewrite map_map. apply map_ext_in. intros t Ht. apply in_seq in Ht. rewrite <- nsum_fin, map_map. f_equal.
    apply map_ext_in. intros v Hv. apply in_seq in Hv. destruct (Hb v) as (B1 & B2 & B3); [lia|]. rewrite B1, B2.
    replace (if Nat.eqb V 1 then O else v) with v by (destruct (Nat.eqb_spec V 1); lia).
    rewrite Hf by lia. apply norm_logpdf_real; auto. }
  rewrite I. unfold fins. rewrite nsum_fin. reflexivity.
Qed.
