(** Scores of models whose volatility is not positive, and scores that fail (C117). *)
From Coq Require Import Reals Lra String List Arith Lia Bool ZArith.
From Verif Require Import Base Num Sums Feat_Proofs Sim_Model Sim_Spec Sim_Proofs Sim_Fit_Proofs Sim_Fit_Props Sim_Use_Props Sim_Cor_Props Few_Props Fit_Nll_Props.
Import ListNotations.
Open Scope R_scope.

(** a number a volatility should be: above zero *)
Definition above_zero (s : num) : Prop := s = PInf \/ exists r, s = Fin r /\ 0 < r.

Lemma not_above : forall s, ~ above_zero s -> ngtb s (Fin 0) = false.
Proof.
  intros [r| | |] H; try reflexivity.
  - unfold ngtb, nltb. apply rltb_false. destruct (Rlt_dec 0 r); [|lra]. exfalso. apply H. right. eauto.
  - exfalso. apply H. now left.
Qed.
Lemma not_above_scaled : forall s dt, ~ above_zero s -> ~ above_zero (nmul s (nsqrt dt)).
Proof.
  intros s dt H K. apply H. clear H. unfold above_zero in *.
  assert (D : nsqrt dt = NaN \/ nsqrt dt = PInf \/ exists q, nsqrt dt = Fin q /\ 0 <= q).
  { destruct dt as [r| | |]; cbn [nsqrt]; auto. destruct (rltb r 0) eqn:E; auto. right. right. exists (sqrt r). split; auto. apply sqrt_pos. }
  revert K. destruct D as [->|[->|(q & -> & Hq)]]; intros K.
  - rewrite nmul_nan in K. destruct K as [K|(r & K & _)]; discriminate.
  - destruct s as [r| | |]; [|exact K|now left|]; cbn in K.
    + unfold sgn_inf, rltb in K. destruct (Rlt_dec 0 r) as [P|P]; [right; eauto|]. destruct (Rlt_dec r 0); destruct K as [K|(z & K & _)]; discriminate.
    + destruct K as [K|(z & K & _)]; discriminate.
  - destruct s as [r| | |]; [|exact K|now left|]; cbn in K.
    + right. exists r. split; auto. destruct K as [K|(z & K & Hz)]; [discriminate|]. injection K as <-. nra.
    + unfold sgn_inf, rltb in K. destruct (Rlt_dec 0 q); cbn in K; [destruct K as [K|(z & K & _)]; discriminate|].
      destruct (Rlt_dec q 0); [lra|]. destruct K as [K|(z & K & _)]; discriminate.
Qed.

(** one standard deviation that is not above zero turns the sum into NaN *)
Lemma nll_indep_nan : forall mean std dx s l, In s std -> ~ above_zero s -> (0 < nrow dx)%nat -> nll_indep mean std dx = Ok l -> l = NaN.
Proof.
  intros mean std dx s l Hs Ha Hr E. unfold nll_indep in E. destruct (negb _); [discriminate|]. injection E as <-.
  assert (Q : nsum (map (fun t => nsum (map (fun j => norm_logpdf (bget mean j) (bget std j) (at2 dx t (if Nat.eqb (ncol dx) 1 then 0%nat else j)))
      (seq 0 (Nat.max (ncol dx) (Nat.max (length mean) (length std)))))) (seq 0 (nrow dx))) = NaN).
  { apply nsum_nan. apply in_map_iff. exists 0%nat. split; [|apply in_seq; lia]. apply nsum_nan.
    apply In_nth with (d := NaN) in Hs as (j & Hj & Ej). apply in_map_iff. exists j. split; [|apply in_seq; lia].
    assert (B : bget std j = s).
    { unfold bget. destruct (Nat.eqb_spec (length std) 1) as [L|L]; [|exact Ej]. replace j with 0%nat in Ej by lia. exact Ej. }
    unfold norm_logpdf. rewrite B, (not_above _ Ha). reflexivity. }
  rewrite Q. reflexivity.
Qed.

Lemma pre_rows : forall infer st x dt st' v d n, preprocess_fit infer st x dt = (st', Ok (v, d)) -> data_rows x = Some n -> nrow v = n.
Proof.
  intros infer st x dt st' v d n H E. unfold preprocess_fit in H. destruct (index_info infer x) as [ii|e]; [|discriminate]. cbv zeta in H.
  destruct (to_numpy2 x) as [w|e] eqn:W; [|discriminate].
  assert (R0 : nrow w = n) by (destruct x; cbn in *; try discriminate; injection W as <-; injection E as <-; reflexivity).
  destruct (Nat.eqb (nrow w) 0); [discriminate|]. destruct dt as [d0|]; [injection H as _ <- _; exact R0|].
  destruct (ix_freq ii) as [f|]; [|injection H as _ <- _; exact R0]. destruct (freq_to_duration f); [injection H as _ <- _; exact R0|discriminate].
Qed.

(* ------------------------------------------------------------------ *)
(** ** C117 *)

(** BM and GBM without correlation: one volatility that is not above zero makes every score NaN, whatever the other volatilities, the data and dt. *)
Theorem C117_nan : forall mvn infer (o : obj bmpar) x dt n l s nll_np,
  nll_np = bm_nll_np mvn \/ nll_np = gbm_nll_np mvn -> bm_cor (o_par o) = None -> In s (bm_vol (o_par o)) -> ~ above_zero s ->
  data_rows x = Some n -> (2 <= n)%nat -> snd (nll infer nll_np o x dt) = Ok l ->
  l = NaN /\ snd (aic infer nll_np o x dt) = Ok NaN /\ snd (bic infer nll_np o x dt) = Ok NaN.
Proof.
  intros mvn infer o x dt n l s nll_np F Hc Hs Ha Hn H2 H. unfold nll, aic, bic, score in *.
  destruct (preprocess_fit infer (o_fit o) x dt) as [st [[v d]|e]] eqn:P; cbn [snd] in *; [|discriminate].
  pose proof (pre_rows _ _ _ _ _ _ _ _ P Hn) as Nv. rewrite (data_rows_shape _ _ Hn), H. cbn [bind].
  assert (L : l = NaN).
  { assert (Hin : In (nmul s (nsqrt d)) (scale_dt (bm_vol (o_par o)) d)) by (unfold scale_dt; apply in_map_iff; eauto).
    pose proof (not_above_scaled s d Ha) as Ha'. destruct F as [->| ->].
    - unfold bm_nll_np, nll_with in H. rewrite Hc in H. eapply nll_indep_nan; eauto. cbn [nrow diff0]. lia.
    - unfold gbm_nll_np in H. apply bind_ok in H as (mu & _ & H). unfold nll_with in H. rewrite Hc in H. eapply nll_indep_nan; eauto. cbn [nrow logret]. lia. }
  subst l. split; [reflexivity|]. rewrite nmul_nan. cbn [nmul]. rewrite !nadd_nan. split; reflexivity.
Qed.
Print Assumptions C117_nan.

(** two series: the second volatility is zero, the scores of the pair are NaN *)
Example C117_nan_example : let o := mkObj (mkBM [Fin 0; Fin 0] [Fin 1; Fin 0] None None) (Fin 2) unfitted in
  let x := DNp2 (mkArr 3 2 (fun t j => Fin (INR t))) in
  snd (nll (fun _ => Ok None) (bm_nll_np (fun _ _ _ => Ok NaN)) o x (Some (Fin 1))) = Ok NaN.
Proof.
  cbv zeta. destruct (snd (nll (fun _ => Ok None) (bm_nll_np (fun _ _ _ => Ok NaN)) (mkObj (mkBM [Fin 0; Fin 0] [Fin 1; Fin 0] None None) (Fin 2) unfitted)
    (DNp2 (mkArr 3 2 (fun t _ => Fin (INR t)))) (Some (Fin 1)))) as [l|e] eqn:E.
  - destruct (C117_nan (fun _ _ _ => Ok NaN) (fun _ => Ok None) (mkObj (mkBM [Fin 0; Fin 0] [Fin 1; Fin 0] None None) (Fin 2) unfitted)
      (DNp2 (mkArr 3 2 (fun t _ => Fin (INR t)))) (Some (Fin 1)) 3 l (Fin 0) _ (or_introl eq_refl) eq_refl) as [-> _]; auto.
    + cbn. auto.
    + intros [K|(r & K & P)]; [discriminate|]. injection K as <-. lra.
  - unfold nll in E. rewrite preprocess_np2 in E by (cbn; lia). cbn [snd o_par] in E. unfold bm_nll_np, nll_with, nll_indep in E. cbn in E. discriminate.
Qed.

(** A series whose changes (BM), or whose log-returns (GBM), are all the same is fitted with volatility 0 and then has no score: nll, aic and
    bic of the fitted model on that series are NaN.  (All other series have a finite score: C105.) *)
Theorem C117_straight_bm : forall infer chol mvn (o : obj bmpar) n x dt, (2 <= n)%nat -> 0 < dt -> all_equal (changes n x) ->
  exists f, fit infer (bm_fit_np chol) o (one_column n x) (Some (Fin dt)) = (f, Ok tt)
  /\ bm_drift (o_par f) = [Fin ((x 1%nat - x 0%nat) / dt)] /\ bm_vol (o_par f) = [Fin 0]
  /\ snd (nll infer (bm_nll_np mvn) f (one_column n x) (Some (Fin dt))) = Ok NaN
  /\ snd (aic infer (bm_nll_np mvn) f (one_column n x) (Some (Fin dt))) = Ok NaN
  /\ snd (bic infer (bm_nll_np mvn) f (one_column n x) (Some (Fin dt))) = Ok NaN.
Proof.
  intros infer chol mvn o n x dt Hn Hdt He. set (X := fun t (_ : nat) => x t). set (l := changes n x) in *.
  assert (Ll : length l = n) by (unfold l, changes; rewrite map_length, seq_length; auto).
  destruct (fit_changes_spec chol (o_par o) (diff0 (farr (n + 1) 1 X)) dt (incr X)) as (F1 & F2 & F3); [auto|cbn; lia| |].
  { intros t v Ht Hv. cbn [diff0 at2 farr]. rewrite nsub_fin. unfold incr. rewrite Nat.add_1_r. reflexivity. }
  cbn [diff0 nrow ncol farr seq map] in F1, F2, F3. replace (n + 1 - 1)%nat with n in F1, F2 by lia.
  change (map (fun t => incr X t 0%nat) (seq 0 n)) with l in F1, F2. destruct (F3 (le_n 1)) as (F4 & F5 & F6).
  assert (V0 : rvar 1 l = 0) by (apply rvar_zero_iff; [lia|exact He]).
  assert (M0 : rmean l = x 1%nat - x 0%nat).
  { assert (Z : forall y, In y l -> y = x 1%nat - x 0%nat).
    { intros y Hy. apply He; auto. unfold l, changes. apply in_map_iff. exists 0%nat. split; auto. apply in_seq. lia. }
    unfold rmean. rewrite Ll. assert (Q : rsum l = INR n * (x 1%nat - x 0%nat)).
    { rewrite <- Ll. clearbody l. clear - Z. induction l as [|a m IH]; [cbn; ring|]. cbn [rsum fold_right length]. change (fold_right Rplus 0 m) with (rsum m).
      rewrite IH by (intros; apply Z; now right). rewrite (Z a) by now left. rewrite S_INR. ring. }
    rewrite Q. field. apply not_0_INR. lia. }
  rewrite V0, sqrt_0 in F2. rewrite M0 in F1. replace (0 / sqrt dt) with 0 in F2 by (unfold Rdiv; ring).
  assert (EF : fit infer (bm_fit_np chol) o (one_column n x) (Some (Fin dt)) = (mkObj (mkBM [Fin ((x 1%nat - x 0%nat) / dt)] [Fin 0] None None) (o_k o)
     (mkFit COther (Some (n + 1)%nat) (Some 1%nat) no_index None (Some (Fin dt)) (Some (row (farr (n + 1) 1 X) 0)) (Some (row (farr (n + 1) 1 X) (n + 1 - 1)))), Ok tt)).
  { unfold one_column, fit. fold X. rewrite preprocess_np2 by (cbn; lia). unfold bm_fit_np. destruct (fit_changes chol (o_par o) (diff0 (farr (n + 1) 1 X)) (Fin dt)) as [p r]. cbn [fst snd] in *. rewrite F4.
    destruct p as [p1 p2 p3 p4]. cbn [bm_drift bm_vol bm_cor bm_L] in *. rewrite F1, F2, F5, F6. reflexivity. }
  eexists. split; [exact EF|]. split; [reflexivity|]. split; [reflexivity|].
  destruct (snd (nll infer (bm_nll_np mvn) (mkObj (mkBM [Fin ((x 1%nat - x 0%nat) / dt)] [Fin 0] None None) (o_k o)
     (mkFit COther (Some (n + 1)%nat) (Some 1%nat) no_index None (Some (Fin dt)) (Some (row (farr (n + 1) 1 X) 0)) (Some (row (farr (n + 1) 1 X) (n + 1 - 1))))) (one_column n x) (Some (Fin dt)))) as [v|e] eqn:E.
  - match type of E with snd (nll _ _ ?f _ _) = _ => assert (K := fun H1 H2 H3 => C117_nan mvn infer f (one_column n x) (Some (Fin dt)) (n + 1) v (Fin 0) _ (or_introl eq_refl) eq_refl H1 H2 eq_refl H3 E) end.
    destruct K as (-> & A & B); [now left|intros [K|(r & K & P)]; [discriminate|injection K as <-; lra]|lia|auto].
  - exfalso. unfold nll, one_column in E. rewrite preprocess_np2 in E by (cbn; lia). cbn [snd o_par] in E. unfold bm_nll_np, nll_with, nll_indep in E. cbn in E. discriminate.
Qed.
Print Assumptions C117_straight_bm.

Theorem C117_straight_gbm : forall infer chol mvn (o : obj bmpar) n x dt, (2 <= n)%nat -> 0 < dt -> (forall t, 0 < x t) -> all_equal (changes n (fun t => ln (x t))) ->
  exists f, fit infer (gbm_fit_np chol) o (one_column n x) (Some (Fin dt)) = (f, Ok tt)
  /\ bm_drift (o_par f) = [Fin (ln (x 1%nat / x 0%nat) / dt)] /\ bm_vol (o_par f) = [Fin 0]
  /\ snd (nll infer (gbm_nll_np mvn) f (one_column n x) (Some (Fin dt))) = Ok NaN
  /\ snd (aic infer (gbm_nll_np mvn) f (one_column n x) (Some (Fin dt))) = Ok NaN
  /\ snd (bic infer (gbm_nll_np mvn) f (one_column n x) (Some (Fin dt))) = Ok NaN.
Proof.
  intros infer chol mvn o n x dt Hn Hdt Hx He. set (X := fun t (_ : nat) => x t). set (Y := fun t (_ : nat) => ln (x t)). set (l := changes n (fun t => ln (x t))) in *.
  assert (Ll : length l = n) by (unfold l, changes; rewrite map_length, seq_length; auto).
  destruct (fit_changes_spec chol (o_par o) (logret (farr (n + 1) 1 X)) dt (incr Y)) as (F1 & F2 & F3); [auto|cbn; lia| |].
  { intros t v Ht Hv. cbn [logret at2 farr]. pose proof (Hx t). pose proof (Hx (S t)). unfold X. rewrite ndiv_fin by lra. rewrite nlog_fin by (apply Rdiv_lt_0_compat; auto).
    unfold Rdiv. rewrite ln_mult, ln_Rinv by (auto; apply Rinv_0_lt_compat; auto). unfold incr, Y. rewrite Nat.add_1_r. reflexivity. }
  cbn [logret nrow ncol farr seq map] in F1, F2, F3. replace (n + 1 - 1)%nat with n in F1, F2 by lia.
  change (map (fun t => incr Y t 0%nat) (seq 0 n)) with l in F1, F2. destruct (F3 (le_n 1)) as (F4 & F5 & F6).
  assert (V0 : rvar 1 l = 0) by (apply rvar_zero_iff; [lia|exact He]).
  assert (EL : ln (x 1%nat / x 0%nat) = ln (x 1%nat) - ln (x 0%nat)).
  { unfold Rdiv. rewrite ln_mult, ln_Rinv; auto. apply Rinv_0_lt_compat. auto. }
  assert (M0 : rmean l = ln (x 1%nat / x 0%nat)).
  { rewrite EL. assert (Z : forall y, In y l -> y = ln (x 1%nat) - ln (x 0%nat)).
    { intros y Hy. apply He; auto. unfold l, changes. apply in_map_iff. exists 0%nat. split; auto. apply in_seq. lia. }
    unfold rmean. rewrite Ll. assert (Q : rsum l = INR n * (ln (x 1%nat) - ln (x 0%nat))).
    { rewrite <- Ll. clearbody l. clear - Z. induction l as [|a m IH]; [cbn; ring|]. cbn [rsum fold_right length]. change (fold_right Rplus 0 m) with (rsum m).
      rewrite IH by (intros; apply Z; now right). rewrite (Z a) by now left. rewrite S_INR. ring. }
    rewrite Q. field. apply not_0_INR. lia. }
  rewrite V0, sqrt_0 in F2. rewrite M0 in F1. replace (0 / sqrt dt) with 0 in F2 by (unfold Rdiv; ring).
  assert (EF : fit infer (gbm_fit_np chol) o (one_column n x) (Some (Fin dt)) = (mkObj (mkBM [Fin (ln (x 1%nat / x 0%nat) / dt)] [Fin 0] None None) (o_k o)
     (mkFit COther (Some (n + 1)%nat) (Some 1%nat) no_index None (Some (Fin dt)) (Some (row (farr (n + 1) 1 X) 0)) (Some (row (farr (n + 1) 1 X) (n + 1 - 1)))), Ok tt)).
  { unfold one_column, fit. fold X. rewrite preprocess_np2 by (cbn; lia). unfold gbm_fit_np. destruct (fit_changes chol (o_par o) (logret (farr (n + 1) 1 X)) (Fin dt)) as [p r]. cbn [fst snd] in *. rewrite F4.
    destruct p as [p1 p2 p3 p4]. cbn [bm_drift bm_vol bm_cor bm_L] in *. rewrite F1, F2, F5, F6. reflexivity. }
  eexists. split; [exact EF|]. split; [reflexivity|]. split; [reflexivity|].
  destruct (snd (nll infer (gbm_nll_np mvn) (mkObj (mkBM [Fin (ln (x 1%nat / x 0%nat) / dt)] [Fin 0] None None) (o_k o)
     (mkFit COther (Some (n + 1)%nat) (Some 1%nat) no_index None (Some (Fin dt)) (Some (row (farr (n + 1) 1 X) 0)) (Some (row (farr (n + 1) 1 X) (n + 1 - 1))))) (one_column n x) (Some (Fin dt)))) as [v|e] eqn:E.
  - match type of E with snd (nll _ _ ?f _ _) = _ => assert (K := fun H1 H2 H3 => C117_nan mvn infer f (one_column n x) (Some (Fin dt)) (n + 1) v (Fin 0) _ (or_intror eq_refl) eq_refl H1 H2 eq_refl H3 E) end.
    destruct K as (-> & A & B); [now left|intros [K|(r & K & P)]; [discriminate|injection K as <-; lra]|lia|auto].
  - exfalso. unfold nll, one_column in E. rewrite preprocess_np2 in E by (cbn; lia). cbn [snd o_par] in E. unfold gbm_nll_np, nll_with, nll_indep in E. cbn in E. discriminate.
Qed.
Print Assumptions C117_straight_gbm.

(** a straight line, and a price growing by the same factor *)
Example C117_straight_example : all_equal (changes 3 (fun t => 2 * INR t)) /\ all_equal (changes 3 (fun t => ln (exp (INR t)))) /\ forall t, 0 < exp (INR t).
Proof.
  split; [|split].
  - intros a b Ha Hb. unfold changes in *. apply in_map_iff in Ha as (s & <- & _). apply in_map_iff in Hb as (u & <- & _). rewrite !plus_INR. simpl (INR 1). ring.
  - intros a b Ha Hb. unfold changes in *. apply in_map_iff in Ha as (s & <- & _). apply in_map_iff in Hb as (u & <- & _). rewrite !ln_exp, !plus_INR. simpl (INR 1). ring.
  - intros t. apply exp_pos.
Qed.

(** nll, aic and bic succeed together, and fail together with the same exception; the two criteria are computed from the value of nll. *)
Theorem C117_together : forall P infer nll_np (o : obj P) x dt n, data_rows x = Some n ->
  (forall e, snd (nll infer nll_np o x dt) = Raise e <-> snd (aic infer nll_np o x dt) = Raise e) /\
  (forall e, snd (nll infer nll_np o x dt) = Raise e <-> snd (bic infer nll_np o x dt) = Raise e) /\
  forall l, snd (nll infer nll_np o x dt) = Ok l ->
    snd (aic infer nll_np o x dt) = Ok (nadd (nmul (Fin 2) (o_k o)) (nmul (nmul (Fin 2) l) (Fin (INR n))))
    /\ snd (bic infer nll_np o x dt) = Ok (nadd (nmul (nmul (Fin 2) (nlog (Fin (INR n)))) (o_k o)) (nmul (nmul (Fin 2) l) (Fin (INR n)))).
Proof.
  intros P infer nll_np o x dt n Hn. unfold nll, aic, bic, score. destruct (preprocess_fit infer (o_fit o) x dt) as [st [[v d]|e]]; cbn [snd].
  - rewrite (data_rows_shape _ _ Hn). cbn [bind]. destruct (nll_np (o_par o) v d) as [l|e]; cbn [bind].
    + split; [|split]; try (intros e; split; discriminate). intros l' [= <-]. split; reflexivity.
    + split; [|split]; try (intros e'; split; intros [= <-]; reflexivity). discriminate.
  - split; [|split]; try (intros e'; split; intros [= <-]; reflexivity). discriminate.
Qed.
Print Assumptions C117_together.

(** an empty array fails in all three in the same way *)
Example C117_together_example : data_rows (DNp1 []) = Some 0%nat
  /\ snd (aic (fun _ => Ok None) (bm_nll_np (fun _ _ _ => Ok NaN)) (mkObj (mkBM [Fin 0] [Fin 1] None None) (Fin 2) unfitted) (DNp1 []) None) = Raise IndexError.
Proof. split; reflexivity. Qed.

(** OU without correlation: a volatility 0, or a mean reversion rate 0, of any of the series makes every score NaN.  (A negative volatility is
    squared and gives the score of its absolute value: C26.) *)
Theorem C117_ou : forall infer mvn mean mrr vol k st a dt v, let m := length mean in
  perV mrr m -> perV vol m -> (v < m)%nat -> pget mrr v = 0 \/ pget vol v = 0 -> (2 <= nrow a)%nat -> ncol a = m ->
  let o := mkObj (mkOU (Row (fins mean)) (Row (fins mrr)) (Row (fins vol)) None None) k st in
  snd (nll infer (ou_nll_np mvn) o (DNp2 a) (Some (Fin dt))) = Ok NaN
  /\ snd (aic infer (ou_nll_np mvn) o (DNp2 a) (Some (Fin dt))) = Ok NaN
  /\ snd (bic infer (ou_nll_np mvn) o (DNp2 a) (Some (Fin dt))) = Ok NaN.
Proof.
  intros infer mvn mean mrr vol k st a dt v m Hmr Hvol Hv Hz Hr Hc o.
  assert (E : snd (nll infer (ou_nll_np mvn) o (DNp2 a) (Some (Fin dt))) = Ok NaN).
  { unfold nll. rewrite preprocess_np2 by lia. cbn [snd o_par].
    destruct (ou_terms (fins mean) (fins mrr) (fins vol) None None (Fin dt) m)
      as (mt & sc & E1 & E2 & Pm & Ps & Hg); [apply length_fins|apply perV_map; auto|apply perV_map; auto|].
    unfold ou_nll_np, o. cbn [o_par]. rewrite E1, E2. cbn [bind pflat ou_factor ou_mrr pmap ou_cor]. rewrite Hc.
    rewrite bfits_perV by (apply perV_map, perV_map; auto). unfold nll_with, nll_indep. cbn [ncol nrow].
    assert (Q : forall l, perV l m -> bfits l m = true) by (intros l Hl; now apply bfits_perV).
    rewrite (Q _ Pm), (Q _ Ps). cbn [orb andb].
    assert (B : (Nat.eqb (length mt) (length sc) || Nat.eqb (length mt) 1 || Nat.eqb (length sc) 1)%bool = true).
    { destruct Pm as [->| ->], Ps as [->| ->]; rewrite ?Nat.eqb_refl, ?Bool.orb_true_r; reflexivity. }
    rewrite B. cbn [negb]. do 2 f_equal. 
    match goal with |- nneg (nsum ?l) = NaN => assert (Q0 : nsum l = NaN) end.
    { apply nsum_nan. apply in_map_iff. exists 0%nat. split; [|apply in_seq; lia]. apply nsum_nan. apply in_map_iff. exists v. split; [|apply in_seq; lia].
      destruct (Hg v Hv) as (_ & G2 & _). rewrite !(bget_fins _ m) in G2 by auto. unfold norm_logpdf. rewrite G2.
      unfold nsqr. cbn [nmul nexp nsub nadd nneg]. destruct (Req_dec (pget mrr v) 0) as [Z|Z].
      - rewrite Z. replace (2 * 0) with 0 by ring. replace (-2 * 0 * dt) with 0 by ring. rewrite exp_0. replace (1 + -1) with 0 by ring.
        unfold ndiv, reqb. destruct (Req_EM_T 0 0); [|congruence]. unfold sgn_inf, rltb. destruct (Rlt_dec 0 (pget vol v * pget vol v)).
        + cbn [nmul]. unfold sgn_inf, rltb. repeat match goal with |- context [Rlt_dec ?p ?q] => destruct (Rlt_dec p q); [lra|] end. reflexivity.
        + destruct (Rlt_dec (pget vol v * pget vol v) 0); [nra|]. reflexivity.
      - destruct Hz as [Hz|Hz]; [contradiction|]. rewrite Hz, ndiv_fin by lra. cbn [nmul].
        match goal with |- context [nsqrt (Fin ?r)] => replace r with 0 by (field; auto) end. rewrite nsqrt_fin by lra. rewrite sqrt_0.
        unfold ngtb, nltb. rewrite (proj2 (rltb_false 0 0)) by lra. reflexivity. }
    rewrite Q0. reflexivity. }
  destruct (C117_together _ infer (ou_nll_np mvn) o (DNp2 a) (Some (Fin dt)) (nrow a) eq_refl) as (_ & _ & K). destruct (K _ E) as [-> ->].
  rewrite nmul_nan. cbn [nmul]. rewrite !nadd_nan. auto.
Qed.
Print Assumptions C117_ou.

Example C117_ou_example : perV [0] (length [5]) /\ perV [2] (length [5]) /\ pget [0] 0 = 0.
Proof. repeat split; left; reflexivity. Qed.
