(** Models fitted to one or two observations, and to lists (C114). *)
From Coq Require Import Reals Lra String List Arith Lia Bool ZArith.
From Verif Require Import Base Num Sums Sim_Model Sim_Proofs Chol_Model.
Import ListNotations.
Open Scope R_scope.

(** x is one observation of the values l: a number, a list, an array with one row or one element *)
Definition one_observation (x : sdata) (l : list num) : Prop :=
  x = DList l \/ (exists v, l = [v] /\ (x = DScalar v \/ x = DNp1 [v])) \/ exists a, x = DNp2 a /\ nrow a = 1%nat /\ row a 0 = l.

Lemma nmul_nan : forall x, nmul x NaN = NaN.
Proof. intros []; reflexivity. Qed.
Lemma nadd_nan : forall x, nadd x NaN = NaN.
Proof. intros []; reflexivity. Qed.
Lemma list_of_nth : forall (l : list num), map (fun j => nth j l NaN) (seq 0 (length l)) = l.
Proof.
  intros l. apply nth_ext with NaN NaN; [now rewrite map_length, seq_length|]. intros i Hi. rewrite map_length, seq_length in Hi. apply nth_map_seq. exact Hi.
Qed.
Lemma zero_div : ndiv (Fin 0) (Fin 0) = NaN.
Proof. unfold ndiv, reqb. destruct (Req_EM_T 0 0); [|congruence]. unfold sgn_inf, rltb. destruct (Rlt_dec 0 0); [lra|reflexivity]. Qed.
Lemma one_numpy : forall x l, one_observation x l -> get_date_time_index x = NoDt /\ exists v, to_numpy2 x = Ok v /\ nrow v = 1%nat /\ ncol v = length l /\ row v 0 = l.
Proof.
  intros x l [->|[(v & -> & [->| ->])|(a & -> & N & R1)]]; (split; [reflexivity|]); eexists; (split; [reflexivity|]).
  - cbn [nrow ncol row_vec]. repeat split. unfold row. cbn [at2 ncol row_vec]. apply list_of_nth.
  - repeat split.
  - repeat split.
  - repeat split; auto. rewrite <- R1. unfold row. now rewrite map_length, seq_length.
Qed.
Lemma one_pre : forall infer st x l dt, one_observation x l -> exists v d, preprocess_fit infer st x dt = (mkFit COther (Some 1%nat) (Some (length l)) no_index None (Some d) (Some l) (Some l), Ok (v, d)) /\
  nrow v = 1%nat /\ ncol v = length l /\ d = match dt with Some d => d | None => Fin (1 / 252) end.
Proof.
  intros infer st x l dt H. destruct (one_numpy x l H) as (Hi & v & Ev & Nr & Nc & Rv). exists v, (match dt with Some d => d | None => Fin (1 / 252) end). split; [|auto].
  unfold preprocess_fit, index_info. rewrite Hi, Ev. cbn [ix_freq no_index f_cont f_rows f_cols f_idx f_names f_dt f_x0 f_xn]. rewrite Nr, Nc. cbn [Nat.eqb Nat.sub]. rewrite Rv.
  assert (E : type_of x = COther /\ get_column_names x = None) by (destruct H as [->|[(w & -> & [->| ->])|(a & -> & _)]]; auto). destruct E as [-> ->]. destruct dt; reflexivity.
Qed.
Lemma chol_nan : forall a, (0 < nrow a)%nat -> nrow a = ncol a -> at2 a 0 0 = NaN -> np_cholesky a = Raise LinAlgError.
Proof.
  intros a H E N. unfold np_cholesky. rewrite E, Nat.eqb_refl. rewrite <- E. assert (Q : forall k, (0 < k)%nat -> chol_cols (at2 a) k = Raise LinAlgError).
  { induction k as [|k IH]; intros Hk; [lia|]. destruct k as [|k]; [cbn [chol_cols bind]; rewrite N; reflexivity|]. change (chol_cols (at2 a) (S (S k))) with (L <- chol_cols (at2 a) (S k) ;;
      let dot i := nsum (map (fun l => nmul (L i l) (L (S k) l)) (seq 0 (S k))) in
      let pivot := nsub (at2 a (S k) (S k)) (dot (S k)) in
      if ngtb pivot (Fin 0) then
        let d := nsqrt pivot in
        Ok (fun i l => if Nat.eqb l (S k) then
                         (if Nat.ltb i (S k) then Fin 0 else if Nat.eqb i (S k) then d else ndiv (nsub (at2 a i (S k)) (dot i)) d)
                       else L i l)
      else Raise LinAlgError). rewrite IH by lia. reflexivity. }
  rewrite Q by exact H. reflexivity.
Qed.
Lemma col_empty : forall a j, nrow a = 0%nat -> col a j = [].
Proof. intros a j H. unfold col. rewrite H. reflexivity. Qed.
Lemma map_repeat_nan : forall (f : list num -> num) n g, f [] = NaN -> (forall j, g j = []) -> map f (map g (seq 0 n)) = repeat NaN n.
Proof. intros f n g H G. generalize 0%nat. induction n as [|n IH]; intros s; [reflexivity|]. cbn [seq map repeat]. rewrite G, H, IH. reflexivity. Qed.
Lemma mean_empty : nmean [] = NaN.
Proof. exact zero_div. Qed.
Lemma var_small : forall l, (l = [] \/ exists x, l = [Fin x]) -> nvar 1 l = NaN.
Proof.
  intros l [->|(x & ->)]; unfold nvar; cbv zeta; cbn [map length Nat.sub].
  - apply mean_empty.
  - assert (M : nmean [Fin x] = Fin x). { unfold nmean, nsum, nofnat. cbn [fold_right nadd length INR ndiv]. unfold reqb. destruct (Req_EM_T 1 0); [lra|]. f_equal. field. }
    rewrite M. unfold nsum, nofnat, nsqr, nsub. cbn [fold_right nneg nadd nmul INR]. replace ((x + - x) * (x + - x) + 0) with 0 by ring. exact zero_div.
Qed.
Lemma changes_empty : forall m (dx : arr2) d, nrow dx = 0%nat -> let (p, r) := fit_changes np_cholesky m dx d in
  bm_drift p = repeat NaN (ncol dx) /\ bm_vol p = repeat NaN (ncol dx) /\ ((ncol dx <= 1)%nat -> r = Ok tt /\ bm_cor p = None /\ bm_L p = None) /\ ((2 <= ncol dx)%nat -> r = Raise LinAlgError).
Proof.
  intros m dx d H. unfold fit_changes. cbv zeta.
  assert (E1 : map (fun c => ndiv (nmean c) d) (map (col dx) (seq 0 (ncol dx))) = repeat NaN (ncol dx)) by (apply map_repeat_nan; [rewrite mean_empty; reflexivity|intros; now apply col_empty]).
  assert (E2 : map (fun c => ndiv (nstd 1 c) (nsqrt d)) (map (col dx) (seq 0 (ncol dx))) = repeat NaN (ncol dx)) by (apply map_repeat_nan; [unfold nstd; rewrite var_small by (now left); reflexivity|intros; now apply col_empty]).
  rewrite E1, E2. destruct (Nat.ltb_spec 1 (ncol dx)) as [L|L].
  - replace (existsb (fun v => neqb v (Fin 0)) (repeat NaN (ncol dx))) with false by (symmetry; clear; induction (ncol dx) as [|n IH]; [reflexivity|]; cbn [repeat existsb neqb]; exact IH).
    rewrite chol_nan; [cbn [bm_drift bm_vol]; repeat split; lia|cbn [nrow corrcoef]; lia|reflexivity|].
    unfold corrcoef. cbn [at2]. unfold ncov. rewrite !col_empty by exact H. cbn [combine map length Nat.sub]. change (ndiv (nsum []) (nofnat 0)) with (nmean []). rewrite mean_empty. reflexivity.
  - cbn [bm_drift bm_vol bm_cor bm_L]. repeat split; try lia.
Qed.

(** Fitting BM or GBM to one observation of m values: every drift and volatility is NaN.  This passes silently if m is 1; for more values LinAlgError is raised.  So a
    list of prices is not a series, it is one observation of as many series. *)
Theorem C114_one_observation : forall infer (o : obj bmpar) x l dt, one_observation x l -> forall np, np = bm_fit_np np_cholesky \/ np = gbm_fit_np np_cholesky ->
  let (fitted, outcome) := fit infer np o x dt in
  bm_drift (o_par fitted) = repeat NaN (length l) /\ bm_vol (o_par fitted) = repeat NaN (length l) /\ f_x0 (o_fit fitted) = Some l /\ f_xn (o_fit fitted) = Some l /\
  f_rows (o_fit fitted) = Some 1%nat /\ f_cols (o_fit fitted) = Some (length l) /\
  ((length l <= 1)%nat -> outcome = Ok tt) /\ ((2 <= length l)%nat -> outcome = Raise LinAlgError).
Proof.
  intros infer o x l dt Hx np Hnp. destruct (one_pre infer (o_fit o) x l dt Hx) as (v & d & E & Nr & Nc & _). unfold fit. rewrite E.
  assert (Q : exists dx, np (o_par o) v d = fit_changes np_cholesky (o_par o) dx d /\ nrow dx = 0%nat /\ ncol dx = length l).
  { destruct Hnp as [->| ->]; eexists; (split; [reflexivity|]); cbn [nrow ncol diff0 logret]; rewrite Nr, Nc; auto. }
  destruct Q as (dx & -> & N0 & Nl). pose proof (changes_empty (o_par o) dx d N0) as C. destruct (fit_changes np_cholesky (o_par o) dx d) as [p r]. rewrite Nl in C. destruct C as (C1 & C2 & C3 & C4).
  cbn [o_par o_fit f_x0 f_xn f_rows f_cols]. repeat split; auto. intros H. apply C3. exact H.
Qed.
Print Assumptions C114_one_observation.

(** OU: one value gives the rate of the slope floor 1e-8 and NaN for mean and volatility; more values LinAlgError, with mean, mrr and vol as before; an empty list UnboundLocalError. *)
Theorem C114_one_observation_ou : forall infer (o : obj oupar) x l dt, 0 < dt -> one_observation x l ->
  let (fitted, outcome) := fit infer (ou_fit_np np_cholesky) o x (Some (Fin dt)) in
  (length l = 1%nat -> outcome = Ok tt /\ ou_mean (o_par fitted) = Scal NaN /\ ou_mrr (o_par fitted) = Scal (Fin (ln 100000000 / dt)) /\ ou_vol (o_par fitted) = Row [NaN]) /\
  ((2 <= length l)%nat -> outcome = Raise LinAlgError /\ ou_mean (o_par fitted) = ou_mean (o_par o) /\ ou_mrr (o_par fitted) = ou_mrr (o_par o) /\ ou_vol (o_par fitted) = ou_vol (o_par o)) /\
  (l = [] -> outcome = Raise UnboundLocalError).
Proof.
  intros infer o x l dt Hdt Hx. destruct (one_pre infer (o_fit o) x l (Some (Fin dt)) Hx) as (v & d & E & Nr & Nc & ->). unfold fit. rewrite E.
  assert (Hc : forall i, ou_fit_col v i = Ok (Fin slope_tol, NaN, [])).
  { intros i. unfold ou_fit_col. assert (Ec : col v i = [at2 v 0 i]) by (unfold col; rewrite Nr; reflexivity). rewrite Ec. cbn [removelast tl]. unfold lstsq_line. cbn [forallb andb map rmean rsum fold_right length combine].
    assert (Z : rmean [] = 0) by (unfold rmean, rsum; cbn; unfold Rdiv; ring). change (rsum []) with 0. cbn [map rsum fold_right]. replace (reqb 0 0) with true by (unfold reqb; destruct (Req_EM_T 0 0); congruence).
    cbn [bind fst snd]. rewrite Z. replace (0 * 0 / (0 * 0 + 1)) with 0 by field. replace (nleb (Fin 0) (Fin slope_tol)) with true.
    2:{ unfold nleb. cbn [nltb]. unfold rltb. destruct (Rlt_dec 0 slope_tol) as [_|N]; [reflexivity|]. exfalso. apply N. unfold slope_tol. lra. }
    cbn [fst snd combine map]. rewrite mean_empty. reflexivity. }
  assert (HM : forall k s, mapM (ou_fit_col v) (seq s k) = Ok (repeat (Fin slope_tol, NaN, []) k)).
  { induction k as [|k IH]; intros s; [reflexivity|]. cbn [seq mapM repeat]. rewrite Hc. cbn [bind]. rewrite IH. reflexivity. }
  unfold ou_fit_np. rewrite Nc, HM. cbv zeta. rewrite Nr. cbn [Nat.sub].
  assert (Lt : ln slope_tol = - ln 100000000). { unfold slope_tol. replace (1 / 100000000) with (/ 100000000) by field. apply ln_Rinv. lra. }
  destruct (Nat.ltb_spec 1 (length l)) as [L|L].
  - rewrite chol_nan; [|cbn [nrow corrcoef ncol]; lia|reflexivity|].
    + cbn [o_par ou_mean ou_mrr ou_vol]. repeat split; intros; subst; try (cbn [length] in *; lia).
    + unfold corrcoef. cbn [at2]. unfold ncov. rewrite !col_empty by reflexivity. cbn [combine map length Nat.sub]. change (ndiv (nsum []) (nofnat 0)) with (nmean []). rewrite mean_empty. reflexivity.
  - destruct l as [|w l]; cbn [length repeat rev app].
    + cbn [o_par]. repeat split; intros; try discriminate; lia.
    + destruct l; [|cbn [length] in L; lia]. cbn [length repeat rev app o_par ou_mean ou_mrr ou_vol map snd]. split; [|split; [intros; lia|discriminate]]. intros _. split; [reflexivity|]. split; [reflexivity|]. split.
      * f_equal. unfold nlog. cbv beta iota. unfold rltb. destruct (Rlt_dec 0 slope_tol) as [_|N]; [|exfalso; apply N; unfold slope_tol; lra]. cbn [nneg ndiv]. unfold reqb. destruct (Req_EM_T dt 0); [lra|]. f_equal. rewrite Lt. field. lra.
      * do 2 f_equal. unfold nstd. rewrite var_small by (now left). cbn [nsqrt nsqr nmul]. unfold nsqr. cbn [nmul]. rewrite nmul_nan. reflexivity.
Qed.
Print Assumptions C114_one_observation_ou.

(** The negative log likelihood of one observation is 0 for every model of one series without correlation, whatever the parameters and the values; so that of a list of prices is. *)
Theorem C114_nll : forall infer mvn d s k st x l dt, one_observation x l ->
  (forall np, np = bm_nll_np mvn \/ np = gbm_nll_np mvn -> snd (nll infer np (mkObj (mkBM [d] [s] None None) k st) x dt) = Ok (Fin 0)) /\
  forall m, snd (nll infer (ou_nll_np mvn) (mkObj (mkOU (Row [m]) (Row [d]) (Row [s]) None None) k st) x dt) = Ok (Fin 0).
Proof.
  intros infer mvn d s k st x l dt Hx. destruct (one_pre infer st x l dt Hx) as (v & t & E & Nr & Nc & _).
  assert (Q : forall a b (dx : arr2), nrow dx = 0%nat -> nll_indep [a] [b] dx = Ok (Fin 0)).
  { intros a b dx H. unfold nll_indep. cbv zeta. unfold bfits. cbn [length Nat.eqb orb andb negb]. rewrite H. cbn [seq map]. unfold nsum. cbn [fold_right nneg]. do 2 f_equal. ring. }
  split.
  - intros np Hnp. unfold nll. cbn [o_fit o_par]. rewrite E. cbn [snd]. destruct Hnp as [->| ->].
    + unfold bm_nll_np, nll_with. cbn [bm_cor bm_drift bm_vol map scale_dt]. apply Q. cbn [nrow diff0]. rewrite Nr. reflexivity.
    + unfold gbm_nll_np, gbm_mean, nll_with. cbn [bm_cor bm_drift bm_vol map scale_dt length Nat.eqb orb bind seq]. apply Q. cbn [nrow logret]. rewrite Nr. reflexivity.
  - intros m. unfold nll. cbn [o_fit o_par]. rewrite E. cbn [snd]. unfold ou_nll_np, ou_mean_term, ou_scale, ou_factor. cbn [ou_mean ou_mrr ou_vol ou_cor pmap pmap2 map length Nat.eqb orb bind seq pflat]. unfold bfits at 1. cbn [length Nat.eqb orb].
    unfold nll_with. apply Q. cbn [nrow]. rewrite Nr. reflexivity.
Qed.
Print Assumptions C114_nll.
(** aic and bic of a number or a list raise AttributeError *)
Theorem C114_scores : forall P infer (np : P -> arr2 -> num -> res num) o x dt, (exists l, x = DList l) \/ (exists v, x = DScalar v) ->
  snd (aic infer np o x dt) = Raise AttributeError /\ snd (bic infer np o x dt) = Raise AttributeError.
Proof.
  intros P infer np o x dt H. assert (Hx : exists l, one_observation x l) by (destruct H as [(l & ->)|(v & ->)]; [exists l; now left|exists [v]; right; left; exists v; auto]). destruct Hx as (l & Hx).
  unfold aic, bic, score. destruct (one_pre infer (o_fit o) x l dt Hx) as (v & t & E & _). rewrite E. destruct H as [(l' & ->)|(w & ->)]; split; reflexivity.
Qed.
Print Assumptions C114_scores.

(** ** Two observations *)
Lemma one_change : forall chol m (dx : arr2) a d, nrow dx = 1%nat -> ncol dx = 1%nat -> at2 dx 0 0 = Fin a -> fit_changes chol m dx d = (mkBM [ndiv (Fin a) d] [NaN] None None, Ok tt).
Proof.
  intros chol m dx a d Nr Nc E. unfold fit_changes. cbv zeta. rewrite Nc. cbn [seq map Nat.ltb Nat.leb]. unfold col. rewrite Nr. cbn [seq map]. rewrite E. do 2 f_equal.
  - do 2 f_equal. unfold nmean, nsum, nofnat. cbn [fold_right nadd length INR ndiv]. unfold reqb. destruct (Req_EM_T 1 0); [lra|]. f_equal. field.
  - f_equal. unfold nstd. rewrite var_small by (right; exists a; reflexivity). reflexivity.
Qed.
Lemma cumsum_nan : forall f t c, (forall u, (1 <= u)%nat -> f u c = NaN) -> (1 <= t)%nat -> cumsum f t c = NaN.
Proof. intros f t c H Ht. destruct t as [|t]; [lia|]. cbn [cumsum]. rewrite H by lia. apply nadd_nan. Qed.
(** Two observations x0 and x1 of one series: the fit succeeds, the drift is (x1 - x0) / dt (for GBM ln (x1 / x0) / dt), the volatility is NaN; paths of the fitted model start at x0, and every value after the start is NaN. *)
Theorem C114_two_observations : forall infer chol (o : obj bmpar) x0 x1 dt z steps, 0 < dt ->
  (let (fitted, outcome) := fit infer (bm_fit_np chol) o (DNp1 [Fin x0; Fin x1]) (Some (Fin dt)) in
   outcome = Ok tt /\ bm_drift (o_par fitted) = [Fin ((x1 - x0) / dt)] /\ bm_vol (o_par fitted) = [NaN] /\
   exists a, bm_path_sample fitted z X0None None steps 1 None None None true = Ok (ONp a) /\ nrow a = (steps + 1)%nat /\ ncol a = 1%nat /\ at2 a 0 0 = Fin x0 /\ forall t, (1 <= t <= steps)%nat -> at2 a t 0 = NaN) /\
  (0 < x0 -> 0 < x1 ->
   let (fitted, outcome) := fit infer (gbm_fit_np chol) o (DNp1 [Fin x0; Fin x1]) (Some (Fin dt)) in
   outcome = Ok tt /\ bm_drift (o_par fitted) = [Fin (ln (x1 / x0) / dt)] /\ bm_vol (o_par fitted) = [NaN] /\
   exists a, gbm_path_sample fitted z X0None None steps 1 None None None true = Ok (ONp a) /\ nrow a = (steps + 1)%nat /\ ncol a = 1%nat /\ at2 a 0 0 = Fin x0 /\ forall t, (1 <= t <= steps)%nat -> at2 a t 0 = NaN).
Proof.
  intros infer chol o x0 x1 dt z steps Hdt.
  assert (Ed : forall a, ndiv (Fin a) (Fin dt) = Fin (a / dt)) by (intros a; unfold ndiv, reqb; destruct (Req_EM_T dt 0); [lra|reflexivity]).
  assert (Pos : ngtb (Fin dt) (Fin 0) = true) by (unfold ngtb; cbn [nltb]; unfold rltb; destruct (Rlt_dec 0 dt); [reflexivity|lra]).
  set (st := mkFit COther (Some 2%nat) (Some 1%nat) no_index None (Some (Fin dt)) (Some [Fin x0]) (Some [Fin x1])).
  assert (Pre : preprocess_fit infer (o_fit o) (DNp1 [Fin x0; Fin x1]) (Some (Fin dt)) = (st, Ok (col_vec [Fin x0; Fin x1], Fin dt))) by reflexivity.
  assert (Path : preprocess_path st (Fin 0) X0None None None None = Ok ([Fin x0], Fin dt, None, None) /\ preprocess_path st (Fin 100) X0None None None None = Ok ([Fin x0], Fin dt, None, None)).
  { unfold preprocess_path. cbn [st f_x0 f_idx f_dt is_some orb ix_has no_index bind fst snd]. rewrite Pos. split; reflexivity. }
  assert (Nn : forall d w row0 (t c : nat), (1 <= t)%nat -> forall dx, fill_noise 1 [d] [NaN] None z = Ok dx -> cumsum (filled 1 w row0 dx) t c = NaN).
  { intros d w row0 t c Ht dx Hdx. unfold fill_noise in Hdx. cbn [bfits length Nat.eqb orb negb] in Hdx. injection Hdx as <-. apply cumsum_nan; [|exact Ht]. intros u Hu. destruct u as [|u]; [lia|]. cbn [filled]. unfold bget. cbn [length Nat.eqb nth]. rewrite nmul_nan. reflexivity. }
  assert (Sx : forall v, set_x0 [v] (1 * 1) = Ok (fun c => nth (c mod 1) [v] NaN)) by reflexivity.
  split.
  - unfold fit. rewrite Pre. unfold bm_fit_np. rewrite (one_change chol (o_par o) (diff0 (col_vec [Fin x0; Fin x1])) (x1 - x0) (Fin dt)); [|reflexivity|reflexivity|reflexivity]. cbn [o_par bm_drift bm_vol]. rewrite Ed.
    split; [reflexivity|]. split; [reflexivity|]. split; [reflexivity|].
    unfold bm_path_sample, path_sample. cbn [o_fit o_par]. rewrite (proj1 Path). cbn [bind]. unfold bm_path_np. cbn [bm_drift bm_vol bm_L length]. cbv zeta. rewrite Sx. cbn [bind Nat.eqb map scale_dt].
    change (nmul NaN (nsqrt (Fin dt))) with NaN. destruct (fill_noise 1 [nmul (Fin ((x1 - x0) / dt)) (Fin dt)] [NaN] None z) as [dx|e] eqn:Edx; [|discriminate Edx]. cbn [bind].
    eexists. split; [reflexivity|]. cbn [nrow ncol at2]. split; [lia|]. split; [reflexivity|]. split; [reflexivity|]. intros t Ht. eapply Nn; [lia|exact Edx].
  - intros H0 H1. unfold fit. rewrite Pre. unfold gbm_fit_np. assert (Er : ndiv (Fin x1) (Fin x0) = Fin (x1 / x0)) by (unfold ndiv, reqb; destruct (Req_EM_T x0 0); [lra|reflexivity]). assert (Hq : 0 < x1 / x0) by (apply Rdiv_lt_0_compat; assumption).
    rewrite (one_change chol (o_par o) (logret (col_vec [Fin x0; Fin x1])) (ln (x1 / x0)) (Fin dt)); [|reflexivity|reflexivity|].
    2:{ cbn [logret at2 col_vec nth]. rewrite Er. unfold nlog, rltb. destruct (Rlt_dec 0 (x1 / x0)); [reflexivity|lra]. }
    cbn [o_par bm_drift bm_vol]. rewrite Ed. split; [reflexivity|]. split; [reflexivity|]. split; [reflexivity|].
    unfold gbm_path_sample, path_sample. cbn [o_fit o_par]. rewrite (proj2 Path). cbn [bind]. unfold gbm_path_np, gbm_mean. cbn [bm_drift bm_vol bm_L length map]. cbv zeta. rewrite Sx. cbn [bind Nat.eqb orb map scale_dt seq bget].
    change (nmul NaN (nsqrt (Fin dt))) with NaN. match goal with |- context[fill_noise 1 [?d] [NaN] None z] => destruct (fill_noise 1 [d] [NaN] None z) as [dx|e] eqn:Edx; [|discriminate Edx] end. cbn [bind].
    eexists. split; [reflexivity|]. cbn [nrow ncol at2]. split; [lia|]. split; [reflexivity|]. split.
    + cbn [cumsum filled]. cbn [Nat.modulo Nat.divmod snd Nat.sub nth]. unfold nlog, rltb. destruct (Rlt_dec 0 x0); [|lra]. cbn [nexp]. rewrite exp_ln by exact H0. reflexivity.
    + intros t Ht. rewrite (Nn _ _ _ t 0%nat) with (2 := Edx) by lia. reflexivity.
Qed.
Print Assumptions C114_two_observations.

(** a list of three prices *)
Example C114_example : forall infer (o : obj bmpar), snd (fit infer (bm_fit_np np_cholesky) o (DList [Fin 100; Fin 101; Fin 103]) None) = Raise LinAlgError /\
  forall mvn, snd (nll infer (bm_nll_np mvn) (mkObj (mkBM [Fin 1] [Fin 2] None None) (Fin 2) unfitted) (DList [Fin 100; Fin 101; Fin 103]) None) = Ok (Fin 0).
Proof.
  intros infer o. assert (H : one_observation (DList [Fin 100; Fin 101; Fin 103]) [Fin 100; Fin 101; Fin 103]) by now left. split.
  - pose proof (C114_one_observation infer o _ _ None H _ (or_introl eq_refl)) as Q. destruct (fit infer (bm_fit_np np_cholesky) o (DList [Fin 100; Fin 101; Fin 103]) None) as [f r]. apply Q. cbn [length]. lia.
  - intros mvn. apply (C114_nll infer mvn (Fin 1) (Fin 2) (Fin 2) unfitted _ _ None H). now left.
Qed.
