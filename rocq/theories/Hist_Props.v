(** Property C122: what a model object remembers of its history. *)
From Coq Require Import Reals Lra String ZArith List Arith Bool Lia.
From Verif Require Import Base Num Sums Lin Sim_Model Sim_Spec Sim_Proofs Sim_Fit_Props Chol_Model Chol_Proofs Sim_Use_Props Sim_Cor_Spec Sim_Cor_Fit_Props Sim_Fit_Proofs Hist_Model Hist_Spec.
Import ListNotations.
Open Scope R_scope.

(** ** Reading the data does not look at the object *)
Lemma read_same : forall infer st st2 x dt, snd (preprocess_fit infer st x dt) = snd (preprocess_fit infer st2 x dt).
Proof.
  intros. unfold preprocess_fit. destruct (index_info infer x) as [ix|]; [|reflexivity]. destruct (to_numpy2 x) as [v|]; [|reflexivity]. destruct (Nat.eqb (nrow v) 0); [reflexivity|].
  destruct dt; [reflexivity|]. destruct (ix_freq ix); [|reflexivity]. destruct (freq_to_duration _); reflexivity.
Qed.
Lemma read_same_ok : forall infer st st2 x dt w, snd (preprocess_fit infer st x dt) = Ok w -> preprocess_fit infer st x dt = preprocess_fit infer st2 x dt.
Proof.
  intros infer st st2 x dt [v d] H. destruct (preprocess_fit infer st x dt) as [s r] eqn:E. cbn in H. subst r. destruct (preprocess_fit_ok _ _ _ _ _ _ _ E) as (_ & _ & _ & _ & _ & _ & E2). symmetry. apply E2.
Qed.
Lemma readable_iff : forall infer st x dt, readable infer x dt <-> exists w, snd (preprocess_fit infer st x dt) = Ok w.
Proof.
  intros. unfold readable, preprocess_fit. split.
  - intros (ix & v & -> & -> & Hr & Hd). destruct (Nat.eqb_spec (nrow v) 0); [contradiction|]. destruct dt; [eexists; reflexivity|]. destruct (ix_freq ix); [|eexists; reflexivity]. destruct (freq_to_duration _); [eexists; reflexivity|contradiction].
  - intros (w & H). destruct (index_info infer x) as [ix|]; [|discriminate]. destruct (to_numpy2 x) as [v|]; [|discriminate]. destruct (Nat.eqb_spec (nrow v) 0); [discriminate|]. exists ix, v. repeat split; auto.
    destruct dt; auto. destruct (ix_freq ix); auto. destruct (freq_to_duration _); [congruence|discriminate].
Qed.
Lemma fit_unread : forall P infer (np : P -> arr2 -> num -> P * res unit) (o : obj P) x dt, ~ readable infer x dt -> o_par (fst (fit infer np o x dt)) = o_par o /\ exists e, snd (fit infer np o x dt) = Raise e.
Proof.
  intros P infer np o x dt H. unfold fit. destruct (preprocess_fit infer (o_fit o) x dt) as [st [[v d]|e]] eqn:E; [|cbn; eauto]. exfalso. apply H, (readable_iff infer (o_fit o)). rewrite E. eexists; reflexivity.
Qed.
Lemma fit_read : forall P infer (np : P -> arr2 -> num -> P * res unit) (o : obj P) x dt, readable infer x dt -> exists st v d, (forall s, preprocess_fit infer s x dt = (st, Ok (v, d))) /\ forall o', fit infer np o' x dt = (mkObj (fst (np (o_par o') v d)) (o_k o') st, snd (np (o_par o') v d)).
Proof.
  intros P infer np o x dt H. apply (readable_iff infer unfitted) in H as ([v d] & H). destruct (preprocess_fit infer unfitted x dt) as [st r] eqn:E. cbn in H. subst r.
  destruct (preprocess_fit_ok _ _ _ _ _ _ _ E) as (_ & _ & _ & _ & _ & _ & E2). exists st, v, d. split; [exact E2|]. intros o'. unfold fit. rewrite E2. destruct (np (o_par o') v d). reflexivity.
Qed.

(** ** Steps *)
Lemma perform_quiet : forall P infer (K : kind P) o c, is_fit c = false -> o_par (fst (perform infer K o c)) = o_par o /\ o_k (fst (perform infer K o c)) = o_k o.
Proof.
  intros P infer K o c H. destruct c; try discriminate; cbn [perform]; auto.
  - unfold nll. destruct (preprocess_fit infer (o_fit o) x dt) as [st [[v d]|e]]; auto.
  - unfold aic, score. destruct (preprocess_fit infer (o_fit o) x dt) as [st [[v d]|e]]; auto.
  - unfold bic, score. destruct (preprocess_fit infer (o_fit o) x dt) as [st [[v d]|e]]; auto.
Qed.
Lemma perform_k : forall P infer (K : kind P) o c, o_k (fst (perform infer K o c)) = o_k o.
Proof.
  intros P infer K o c. destruct (is_fit c) eqn:E; [|apply perform_quiet; auto]. destruct c; try discriminate. cbn [perform]. unfold fit. destruct (preprocess_fit infer (o_fit o) x dt) as [st [[v d]|e]]; auto. destruct (k_fit K (o_par o) v d); auto.
Qed.
Lemma perform_fit_par : forall P infer (K : kind P) o o' x dt, o_par o = o_par o' -> o_par (fst (perform infer K o (CFit x dt))) = o_par (fst (perform infer K o' (CFit x dt))) /\ snd (perform infer K o (CFit x dt)) = snd (perform infer K o' (CFit x dt)).
Proof.
  intros P infer K o o' x dt H. cbn [perform]. unfold fit. rewrite <- H. pose proof (read_same infer (o_fit o) (o_fit o') x dt) as E. destruct (preprocess_fit infer (o_fit o) x dt) as [s1 r1], (preprocess_fit infer (o_fit o') x dt) as [s2 r2]. cbn [snd] in E. subst r2.
  destruct r1 as [[v d]|e]; [|cbn; auto]. destruct (k_fit K (o_par o) v d); auto.
Qed.
Lemma perform_fit_fst : forall P infer (K : kind P) o x dt, fst (perform infer K o (CFit x dt)) = fst (fit infer (k_fit K) o x dt) /\ snd (perform infer K o (CFit x dt)) = (_ <- snd (fit infer (k_fit K) o x dt) ;; Ok Fitted).
Proof. intros. cbn [perform]. destruct (fit infer (k_fit K) o x dt). split; reflexivity. Qed.
Lemma perform_fit_ok : forall P infer (K : kind P) o x dt a, snd (perform infer K o (CFit x dt)) = Ok a <-> (snd (fit infer (k_fit K) o x dt) = Ok tt /\ a = Fitted).
Proof. intros. rewrite (proj2 (perform_fit_fst _ _ _ _ _ _)). destruct (snd (fit infer (k_fit K) o x dt)) as [[]|e]; cbn; split; try (intros [? ?]); try congruence. intros [= <-]; auto. Qed.
Lemma after_cons : forall P infer (K : kind P) o c cs, after infer K o (c :: cs) = after infer K (fst (perform infer K o c)) cs.
Proof. intros. unfold after. cbn [history]. destruct (perform infer K o c). cbn [fst]. destruct (history infer K o0 cs). reflexivity. Qed.
Lemma answers_cons : forall P infer (K : kind P) o c cs, snd (history infer K o (c :: cs)) = snd (perform infer K o c) :: snd (history infer K (fst (perform infer K o c)) cs).
Proof. intros. cbn [history]. destruct (perform infer K o c). cbn [fst snd]. destruct (history infer K o0 cs). reflexivity. Qed.
Lemma after_app : forall P infer (K : kind P) cs o cs', after infer K o (cs ++ cs') = after infer K (after infer K o cs) cs'.
Proof. induction cs as [|c cs IH]; intros o cs'; [reflexivity|]. cbn [app]. rewrite !after_cons. apply IH. Qed.

(** ** C122 *)

(** Scores and simulations leave no trace in the parameters, and nothing changes the number of parameters: after any history the
    parameters are those after its fit calls alone. *)
Theorem C122_only_fits_count : forall P infer (K : kind P) o cs,
  o_par (after infer K o cs) = o_par (after infer K o (filter is_fit cs)) /\ o_k (after infer K o cs) = o_k o.
Proof.
  intros P infer K o cs. split.
  - assert (G : forall cs o o', o_par o = o_par o' -> o_par (after infer K o cs) = o_par (after infer K o' (filter is_fit cs))); [|apply G; reflexivity]. clear.
    induction cs as [|c cs IH]; intros o o' H; [exact H|]. cbn [filter]. rewrite after_cons. destruct (is_fit c) eqn:E.
    + rewrite after_cons. apply IH. destruct c; try discriminate. apply perform_fit_par, H.
    + apply IH. rewrite (proj1 (perform_quiet _ infer K o c E)). exact H.
  - revert o. induction cs as [|c cs IH]; intros o; [reflexivity|]. rewrite after_cons, IH. apply perform_k.
Qed.
Print Assumptions C122_only_fits_count.

(** Simulating leaves no trace at all, neither in the parameters nor in the fit information; a score leaves one in the fit information only. *)
Theorem C122_sampling_silent : forall P infer (K : kind P) o cs,
  after infer K o cs = after infer K o (filter (fun c => negb (is_sample c)) cs)
  /\ forall i c, nth_error cs i = Some c -> is_sample c = false ->
     exists j, j = length (filter (fun c => negb (is_sample c)) (firstn i cs))
       /\ nth_error (snd (history infer K o cs)) i = nth_error (snd (history infer K o (filter (fun c => negb (is_sample c)) cs))) j.
Proof.
  intros P infer K o cs. revert o. induction cs as [|c cs IH]; intros o.
  - split; [reflexivity|]. intros i c Hi. destruct i; discriminate.
  - destruct (is_sample c) eqn:E.
    + assert (E1 : fst (perform infer K o c) = o) by (destruct c; try discriminate; reflexivity). cbn [filter]. rewrite E. cbn [negb]. rewrite after_cons, E1. split; [apply IH|].
      intros i c' Hi Hc. rewrite answers_cons, E1. destruct i as [|i]; [cbn [nth_error] in Hi; congruence|]. cbn [nth_error firstn filter] in *. rewrite E. cbn [negb]. apply (proj2 (IH o) i c' Hi Hc).
    + cbn [filter]. rewrite E. cbn [negb]. rewrite !after_cons. split; [apply IH|]. intros i c' Hi Hc. rewrite !answers_cons. destruct i as [|i].
      * exists 0%nat. split; reflexivity.
      * cbn [nth_error firstn filter] in *. rewrite E. cbn [negb length]. destruct (proj2 (IH (fst (perform infer K o c))) i c' Hi Hc) as (j & Ej & H). exists (Datatypes.S j). split; [congruence|exact H].
Qed.
Print Assumptions C122_sampling_silent.

Lemma class_fit : forall chol mvn P (K : kind P), model_class chol mvn P K -> forall p q v d, snd (k_fit K p v d) = snd (k_fit K q v d) /\ (snd (k_fit K p v d) = Ok tt -> fst (k_fit K p v d) = fst (k_fit K q v d)).
Proof.
  assert (F : forall chol p q dx d, snd (fit_changes chol p dx d) = snd (fit_changes chol q dx d) /\ (snd (fit_changes chol p dx d) = Ok tt -> fst (fit_changes chol p dx d) = fst (fit_changes chol q dx d))).
  { intros. unfold fit_changes. destruct (Nat.ltb 1 (ncol dx)); [|auto]. destruct (existsb _ _); [split; [auto|discriminate]|]. destruct (chol (corrcoef dx)); split; auto; discriminate. }
  intros chol mvn P K H p q v d. destruct H; cbn [k_fit bm_kind gbm_kind ou_kind].
  - apply F.
  - apply F.
  - unfold ou_fit_np. destruct (mapM (ou_fit_col v) (seq 0 (ncol v))) as [cs|e]; [|split; [auto|discriminate]]. cbv zeta. destruct (Nat.ltb 1 (ncol v)).
    + destruct (chol _); [|split; [auto|discriminate]]. destruct (rev cs) as [|[[s i] r] t]; [split; [auto|discriminate]|auto].
    + destruct (rev cs) as [|[[s i] r] t]; [split; [auto|discriminate]|auto].
Qed.

(** Whether a fit works, and which exception it raises otherwise, depends on the data alone, not on the object or its history. *)
Theorem C122_fit_outcome : forall chol mvn P (K : kind P), model_class chol mvn P K ->
  forall infer o1 h1 o2 h2 x dt, asked infer K o1 h1 (CFit x dt) = asked infer K o2 h2 (CFit x dt).
Proof.
  intros chol mvn P K HK infer o1 h1 o2 h2 x dt. unfold asked. generalize (after infer K o1 h1) (after infer K o2 h2). clear o1 o2 h1 h2. intros o1 o2. cbn [perform]. unfold fit.
  pose proof (read_same infer (o_fit o1) (o_fit o2) x dt) as E. destruct (preprocess_fit infer (o_fit o1) x dt) as [s1 r1], (preprocess_fit infer (o_fit o2) x dt) as [s2 r2]. cbn [snd] in E. subst r2.
  destruct r1 as [[v d]|e]; [|reflexivity]. pose proof (proj1 (class_fit _ _ _ _ HK (o_par o1) (o_par o2) v d)) as E. destruct (k_fit K (o_par o1) v d), (k_fit K (o_par o2) v d). cbn [snd] in *. rewrite E. reflexivity.
Qed.
Print Assumptions C122_fit_outcome.

(** A fit that works is a fresh start: afterwards parameters, fit information and all later answers are those of any other object of the
    class fitted to the same data, except that AIC and BIC also need the same number of parameters. *)
Theorem C122_fresh_start : forall chol mvn P (K : kind P), model_class chol mvn P K ->
  forall infer o1 h1 o2 h2 x dt, asked infer K o1 h1 (CFit x dt) = Ok Fitted ->
  let p := after infer K o1 (h1 ++ [CFit x dt]) in let q := after infer K o2 (h2 ++ [CFit x dt]) in
  o_par p = o_par q /\ o_fit p = o_fit q
  /\ forall later i c, nth_error later i = Some c -> is_criterion c = false \/ o_k o1 = o_k o2 ->
       nth_error (snd (history infer K p later)) i = nth_error (snd (history infer K q later)) i.
Proof.
  intros chol mvn P K HK infer o1 h1 o2 h2 x dt H p q. assert (Kp : o_k p = o_k o1) by apply C122_only_fits_count. assert (Kq : o_k q = o_k o2) by apply C122_only_fits_count.
  assert (E : o_par p = o_par q /\ o_fit p = o_fit q).
  { unfold p, q. rewrite !after_app, !after_cons. unfold asked in H. generalize dependent (after infer K o1 h1). generalize (after infer K o2 h2). clear -HK. intros o2 o1 H.
    apply perform_fit_ok in H as [H _]. cbn [perform]. unfold after. cbn [history fst]. destruct (preprocess_fit infer (o_fit o1) x dt) as [s1 [[v d]|e]] eqn:E1.
    - assert (E2 : preprocess_fit infer (o_fit o2) x dt = (s1, Ok (v, d))) by (rewrite <- E1; symmetry; apply (read_same_ok infer _ _ x dt (v, d)); rewrite E1; reflexivity).
      unfold fit in *. rewrite E1 in *. rewrite E2. destruct (class_fit _ _ _ _ HK (o_par o1) (o_par o2) v d) as [C1 C2]. destruct (k_fit K (o_par o1) v d), (k_fit K (o_par o2) v d). cbn [fst snd o_par o_fit] in *. split; auto.
    - unfold fit in H. rewrite E1 in H. discriminate. }
  destruct E as [E1 E2]. split; [exact E1|]. split; [exact E2|]. intros later. rewrite <- Kp, <- Kq. clearbody p q. clear -E1 E2. revert p q E1 E2. induction later as [|c0 later IH]; intros p q E1 E2 i c Hi Hc; [destruct i; discriminate|].
  rewrite !answers_cons.
  assert (S1 : o_par (fst (perform infer K p c0)) = o_par (fst (perform infer K q c0)) /\ o_fit (fst (perform infer K p c0)) = o_fit (fst (perform infer K q c0))).
  { destruct c0; cbn [perform]; unfold fit, nll, aic, bic, score; try (rewrite E1, E2; destruct (preprocess_fit infer (o_fit q) x dt) as [st [[v d]|e]]).
    1: destruct (k_fit K (o_par q) v d). all: cbn [fst o_par o_fit]; auto. }
  destruct i as [|i]; cbn [nth_error] in *.
  - injection Hi as ->. f_equal. destruct c; cbn [perform is_criterion] in *; unfold fit, nll, aic, bic, score; rewrite ?E1, ?E2; try reflexivity;
      destruct (preprocess_fit infer (o_fit q) x dt) as [st [[v d]|e]]; try reflexivity.
    + destruct (k_fit K (o_par q) v d). reflexivity.
    + destruct Hc as [Hc|Hc]; [discriminate|]. rewrite Hc. reflexivity.
    + destruct Hc as [Hc|Hc]; [discriminate|]. rewrite Hc. reflexivity.
  - apply (IH _ _ (proj1 S1) (proj2 S1) i c Hi). rewrite !perform_k. exact Hc.
Qed.
Print Assumptions C122_fresh_start.

(** ** Where the parameters come from when some fits failed *)
Lemma raise_keeps : forall P infer (K : kind P) (A : Type) (f : P -> A),
  (forall o x dt e, snd (fit infer (k_fit K) o x dt) = Raise e -> f (o_par (fst (fit infer (k_fit K) o x dt))) = f (o_par o)) ->
  forall cs o, fits_raise infer K o cs -> f (o_par (after infer K o cs)) = f (o_par o).
Proof.
  intros P infer K A f HF. induction cs as [|c cs IH]; intros o HR; [reflexivity|]. rewrite after_cons. rewrite IH.
  - destruct (is_fit c) eqn:E; [|f_equal; apply perform_quiet, E]. destruct c; try discriminate. rewrite (proj1 (perform_fit_fst _ _ _ _ _ _)). destruct (HR 0%nat x dt eq_refl) as (e & E'). rewrite answers_cons in E'. assert (E2 : snd (perform infer K o (CFit x dt)) = Raise e) by (cbn [nth_error] in E'; congruence). clear E'. rename E2 into E'.
    rewrite (proj2 (perform_fit_fst _ _ _ _ _ _)) in E'. destruct (snd (fit infer (k_fit K) o x dt)) as [u|e'] eqn:Es; [discriminate|]. apply (HF _ _ _ _ Es).
  - intros i x dt Hi. specialize (HR (Datatypes.S i) x dt Hi). rewrite answers_cons in HR. exact HR.
Qed.
Lemma changes_parts : forall chol p q dx d, bm_drift (fst (fit_changes chol p dx d)) = bm_drift (fst (fit_changes chol q dx d)) /\ bm_vol (fst (fit_changes chol p dx d)) = bm_vol (fst (fit_changes chol q dx d))
  /\ (forall e, snd (fit_changes chol p dx d) = Raise e -> bm_L (fst (fit_changes chol p dx d)) = bm_L p)
  /\ (snd (fit_changes chol p dx d) = Ok tt -> factor_matches chol (bm_cor (fst (fit_changes chol p dx d))) (bm_L (fst (fit_changes chol p dx d)))).
Proof.
  intros. unfold fit_changes. destruct (Nat.ltb 1 (ncol dx)).
  - destruct (existsb _ _); [cbn; repeat split; auto; discriminate|]. destruct (chol (corrcoef dx)) eqn:E; cbn; repeat split; auto; discriminate.
  - cbn. repeat split; auto. discriminate.
Qed.

(** BM and GBM: drift and vol are those of the last fit call whose data could be read, even if that call raised; the factor that
    correlates the simulated series is that of the last fit call that worked, or of the constructor when none did. *)
Theorem C122_bm_parts : forall chol mvn (K : kind bmpar), K = bm_kind chol mvn \/ K = gbm_kind chol mvn ->
  forall infer o h1 x dt h2,
  (readable infer x dt -> (forall y dt', In (CFit y dt') h2 -> ~ readable infer y dt') ->
     forall fresh, let p := o_par (after infer K o (h1 ++ CFit x dt :: h2)) in let q := o_par (after infer K fresh [CFit x dt]) in
     bm_drift p = bm_drift q /\ bm_vol p = bm_vol q)
  /\ (asked infer K o h1 (CFit x dt) = Ok Fitted -> fits_raise infer K (after infer K o (h1 ++ [CFit x dt])) h2 ->
     forall fresh, bm_L (o_par (after infer K o (h1 ++ CFit x dt :: h2))) = bm_L (o_par (after infer K fresh [CFit x dt])))
  /\ (fits_raise infer K o h2 -> bm_L (o_par (after infer K o h2)) = bm_L (o_par o)).
Proof.
  intros chol mvn K HK infer o h1 x dt h2.
  assert (HC : model_class chol mvn bmpar K) by (destruct HK as [->| ->]; constructor).
  assert (RK : forall o x dt e, snd (fit infer (k_fit K) o x dt) = Raise e -> bm_L (o_par (fst (fit infer (k_fit K) o x dt))) = bm_L (o_par o)).
  { clear -HK. intros o x dt e. unfold fit. destruct (preprocess_fit infer (o_fit o) x dt) as [st [[v d]|e']]; [|reflexivity]. intros H.
    assert (E : snd (k_fit K (o_par o) v d) = Raise e) by (destruct (k_fit K (o_par o) v d); exact H). clear H.
    assert (E2 : bm_L (fst (k_fit K (o_par o) v d)) = bm_L (o_par o)) by (destruct HK as [->| ->]; cbn [k_fit bm_kind gbm_kind] in *; unfold bm_fit_np, gbm_fit_np in *; exact (proj1 (proj2 (proj2 (changes_parts chol (o_par o) (o_par o) _ d))) e E)).
    destruct (k_fit K (o_par o) v d). exact E2. }
  split; [|split].
  - intros HR HN fresh p q. unfold p, q. clear p q. rewrite after_app, after_cons.
    assert (G : forall cs o, (forall y dt', In (CFit y dt') cs -> ~ readable infer y dt') -> o_par (after infer K o cs) = o_par o).
    { clear. induction cs as [|c cs IH]; intros o H; [reflexivity|]. rewrite after_cons, IH by (intros; apply H; right; auto). destruct (is_fit c) eqn:E; [|apply perform_quiet, E]. destruct c; try discriminate.
      rewrite (proj1 (perform_fit_fst _ _ _ _ _ _)). apply fit_unread, H. left; reflexivity. }
    rewrite G by exact HN. generalize (after infer K o h1). intros o'. rewrite after_cons, !(proj1 (perform_fit_fst _ _ _ _ _ _)). unfold after. cbn [history fst].
    destruct (fit_read _ infer (k_fit K) o' x dt HR) as (st & v & d & _ & E). rewrite !E. cbn [fst o_par].
    destruct HK as [->| ->]; cbn [k_fit bm_kind gbm_kind]; unfold bm_fit_np, gbm_fit_np; split; apply changes_parts.
  - intros HO HR fresh. replace (h1 ++ CFit x dt :: h2) with ((h1 ++ [CFit x dt]) ++ h2) by (rewrite <- app_assoc; reflexivity). rewrite after_app.
    rewrite (raise_keeps _ infer K _ bm_L RK h2 _ HR). f_equal. apply (C122_fresh_start chol mvn bmpar K HC infer o h1 fresh [] x dt HO).
  - intros HR. apply (raise_keeps _ infer K _ bm_L RK h2 _ HR).
Qed.
Print Assumptions C122_bm_parts.

(** OU: mean, mean reversion rate and vol are all those of the last fit call that worked, or of the constructor. *)
Theorem C122_ou_parts : forall chol mvn infer o h1 x dt h2, let K := ou_kind chol mvn in let three p := (ou_mean p, ou_mrr p, ou_vol p) in
  (asked infer K o h1 (CFit x dt) = Ok Fitted -> fits_raise infer K (after infer K o (h1 ++ [CFit x dt])) h2 ->
     forall fresh, three (o_par (after infer K o (h1 ++ CFit x dt :: h2))) = three (o_par (after infer K fresh [CFit x dt])))
  /\ (fits_raise infer K o h2 -> three (o_par (after infer K o h2)) = three (o_par o)).
Proof.
  intros chol mvn infer o h1 x dt h2 K three.
  assert (RK : forall o x dt e, snd (fit infer (k_fit K) o x dt) = Raise e -> three (o_par (fst (fit infer (k_fit K) o x dt))) = three (o_par o)).
  { clear. intros o x dt e. unfold fit. destruct (preprocess_fit infer (o_fit o) x dt) as [st [[v d]|e']]; [|reflexivity]. cbn [K k_fit ou_kind]. unfold ou_fit_np. destruct (mapM _ _) as [cs|]; [|reflexivity]. cbv zeta.
    destruct (Nat.ltb 1 (ncol v)).
    - destruct (chol _); [|reflexivity]. destruct (rev cs) as [|[[s i] r] t]; [reflexivity|discriminate].
    - destruct (rev cs) as [|[[s i] r] t]; [reflexivity|discriminate]. }
  split.
  - intros HO HR fresh. replace (h1 ++ CFit x dt :: h2) with ((h1 ++ [CFit x dt]) ++ h2) by (rewrite <- app_assoc; reflexivity). rewrite after_app.
    rewrite (raise_keeps _ infer K _ three RK h2 _ HR). f_equal. apply (C122_fresh_start chol mvn oupar K (is_ou chol mvn) infer o h1 fresh [] x dt HO).
  - intros HR. apply (raise_keeps _ infer K _ three RK h2 _ HR).
Qed.
Print Assumptions C122_ou_parts.

(** As long as no fit has failed, the factor used by path_sample is the Cholesky factor of the correlation matrix used by nll. *)
Theorem C122_factor_matches : forall chol mvn,
  (forall (K : kind bmpar) infer o cs, K = bm_kind chol mvn \/ K = gbm_kind chol mvn -> factor_matches chol (bm_cor (o_par o)) (bm_L (o_par o)) -> fits_succeed infer K o cs ->
     factor_matches chol (bm_cor (o_par (after infer K o cs))) (bm_L (o_par (after infer K o cs))))
  /\ (forall infer o cs, factor_matches chol (ou_cor (o_par o)) (ou_L (o_par o)) -> fits_succeed infer (ou_kind chol mvn) o cs ->
     factor_matches chol (ou_cor (o_par (after infer (ou_kind chol mvn) o cs))) (ou_L (o_par (after infer (ou_kind chol mvn) o cs))))
  /\ (forall drift vol cor o, bm_new chol drift vol cor = Ok o -> factor_matches chol (bm_cor (o_par o)) (bm_L (o_par o)))
  /\ (forall mean mrr vol cor o, ou_new chol mean mrr vol cor = Ok o -> factor_matches chol (ou_cor (o_par o)) (ou_L (o_par o))).
Proof.
  intros chol mvn.
  assert (G : forall P infer (K : kind P) (I : P -> Prop), (forall o x dt, snd (fit infer (k_fit K) o x dt) = Ok tt -> I (o_par (fst (fit infer (k_fit K) o x dt)))) -> forall cs o, I (o_par o) -> fits_succeed infer K o cs -> I (o_par (after infer K o cs))).
  { clear. intros P infer K I HF. induction cs as [|c cs IH]; intros o HI HS; [exact HI|]. rewrite after_cons. apply IH.
    - destruct (is_fit c) eqn:E; [|rewrite (proj1 (perform_quiet _ infer K o c E)); exact HI]. destruct c; try discriminate. rewrite (proj1 (perform_fit_fst _ _ _ _ _ _)). apply HF.
      specialize (HS 0%nat x dt eq_refl). rewrite answers_cons in HS. assert (E2 : snd (perform infer K o (CFit x dt)) = Ok Fitted) by (cbn [nth_error] in HS; congruence). clear HS. rename E2 into HS. apply perform_fit_ok in HS. apply HS.
    - intros i x dt Hi. specialize (HS (Datatypes.S i) x dt Hi). rewrite answers_cons in HS. exact HS. }
  split; [|split; [|split]].
  - intros K infer o cs HK H0 HS. apply (G _ infer K (fun p => factor_matches chol (bm_cor p) (bm_L p))); [|exact H0|exact HS]. clear -HK. intros o x dt. unfold fit. destruct (preprocess_fit infer (o_fit o) x dt) as [st [[v d]|e]]; [|discriminate]. intros H.
    assert (E : snd (k_fit K (o_par o) v d) = Ok tt) by (destruct (k_fit K (o_par o) v d); exact H). clear H.
    assert (E2 : factor_matches chol (bm_cor (fst (k_fit K (o_par o) v d))) (bm_L (fst (k_fit K (o_par o) v d)))) by (destruct HK as [->| ->]; cbn [k_fit bm_kind gbm_kind] in *; unfold bm_fit_np, gbm_fit_np in *; exact (proj2 (proj2 (proj2 (changes_parts chol (o_par o) (o_par o) _ d))) E)).
    destruct (k_fit K (o_par o) v d). exact E2.
  - intros infer o cs H0 HS. apply (G _ infer (ou_kind chol mvn) (fun p => factor_matches chol (ou_cor p) (ou_L p))); [|exact H0|exact HS]. clear. intros o x dt. unfold fit. destruct (preprocess_fit infer (o_fit o) x dt) as [st [[v d]|e]]; [|discriminate].
    cbn [k_fit ou_kind]. unfold ou_fit_np. destruct (mapM _ _) as [cs|]; [|discriminate]. cbv zeta. destruct (Nat.ltb 1 (ncol v)).
    + destruct (chol _) eqn:E; [|discriminate]. destruct (rev cs) as [|[[s i] r] t]; [discriminate|]. intros _. exact E.
    + destruct (rev cs) as [|[[s i] r] t]; [discriminate|]. intros _. exact Logic.I.
  - intros drift vol cor o H. unfold bm_new, bm_init in H. destruct (to_row drift); [|discriminate]. destruct (to_row vol); [|discriminate]. cbn [bind] in H. destruct cor as [c|].
    + destruct (chol c) eqn:E; [|discriminate]. injection H as <-. exact E.
    + injection H as <-. exact Logic.I.
  - intros mean mrr vol cor o H. unfold ou_new, ou_init in H. destruct (to_row mean); [|discriminate]. destruct (to_row mrr); [|discriminate]. destruct (to_row vol); [|discriminate]. cbn [bind] in H. destruct cor as [c|].
    + destruct (chol c) eqn:E; [|discriminate]. injection H as <-. exact E.
    + injection H as <-. exact Logic.I.
Qed.
Print Assumptions C122_factor_matches.

(** Data: two series that vary independently, two series one of which is twice the other, two series one of which grows by a constant. *)
Definition apart : nat -> nat -> R := fun t v => match t, v with 0%nat, _ => 0 | 1%nat, 0%nat => 1 | 1%nat, _ => 0 | _, _ => 1 end.
Definition doubled : nat -> nat -> R := fun t v => (INR v + 1) * match t with 0%nat => 0 | 1%nat => 1 | _ => 3 end.
Definition steady : nat -> nat -> R := fun t v => match v with 0%nat => INR t | _ => match t with 1%nat => 1 | _ => 0 end end.
Definition ask (x : nat -> nat -> R) : call := CFit (DNp2 (farr 4 2 x)) (Some (Fin 1)).

Lemma obs : forall x, observed (farr 4 2 x) 3 2 x.
Proof. intros. repeat split; auto. Qed.
Lemma sum3 : forall f, sumn 3 f = f 0%nat + f 1%nat + f 2%nat.
Proof. intros. rewrite !S_succ, S_0. ring. Qed.
Lemma apart_cor : s_cor 3 (incr apart) 0 1 = - (1 / 2).
Proof.
  assert (E : forall i, (i < 2)%nat -> s_cov 3 (incr apart) i i = 1 / 3).
  { intros i Hi. destruct i as [|[|i]]; [| |lia]; unfold s_cov, s_mean; rewrite !sum3; unfold incr, apart; cbn [Nat.add Nat.sub INR]; field. }
  unfold s_cor. rewrite !E by lia. rewrite sqrt_sqrt by lra. unfold s_cov, s_mean. rewrite !sum3. unfold incr, apart. cbn [Nat.add Nat.sub INR]. field.
Qed.
Lemma doubled_cor : s_cor 3 (incr doubled) 0 1 = 1.
Proof.
  assert (E0 : s_cov 3 (incr doubled) 0 0 = 1 * 1) by (unfold s_cov, s_mean; rewrite !sum3; unfold incr, doubled; cbn [Nat.add Nat.sub INR]; field).
  assert (E1 : s_cov 3 (incr doubled) 1 1 = 2 * 2) by (unfold s_cov, s_mean; rewrite !sum3; unfold incr, doubled; cbn [Nat.add Nat.sub INR]; field).
  unfold s_cor. rewrite E0, E1, !sqrt_square by lra. unfold s_cov, s_mean. rewrite !sum3. unfold incr, doubled. cbn [Nat.add Nat.sub INR]. field.
Qed.
Lemma fit_cor_of : forall infer (o : obj bmpar) a x n m dt, (2 <= n)%nat -> (2 <= m)%nat -> 0 < dt -> observed a n m x -> (forall v, (v < m)%nat -> moves n (incr x) v) ->
  exists c, bm_cor (o_par (fst (fit infer (bm_fit_np np_cholesky) o (DNp2 a) (Some (Fin dt))))) = Some c /\ nrow c = m /\ ncol c = m /\ forall i j, (i < m)%nat -> (j < m)%nat -> at2 c i j = Fin (s_cor n (incr x) i j).
Proof.
  intros infer o a x n m dt Hn Hm Hdt HO HM. pose proof (C98_bm_fit infer o a x n m dt Hn Hm Hdt HO) as F. destruct HO as (Hr & Hc & Hx). unfold fit in *. rewrite preprocess_np2 in * by lia. unfold bm_fit_np in *.
  assert (NV : snd (fit_changes np_cholesky (o_par o) (diff0 a) (Fin dt)) <> Raise ValueError).
  { destruct (fit_changes np_cholesky (o_par o) (diff0 a) (Fin dt)) as [p r]. cbn [snd]. destruct F as (_ & F2 & F3). destruct (Classical_Prop.classic (independent n m (incr x))) as [I0|I0]; [rewrite (proj1 (F3 I0)); discriminate|rewrite (F2 HM I0); discriminate]. }
  exists (corrcoef (diff0 a)). split.
  - unfold fit_changes in *. change (ncol (diff0 a)) with (ncol a) in *. rewrite Hc in *. destruct (Nat.ltb_spec 1 m); [|lia]. destruct (existsb _ _); [destruct (NV eq_refl)|]. destruct (np_cholesky _); reflexivity.
  - split; [exact Hc|]. split; [exact Hc|]. intros i j Hi Hj. apply (corrcoef_get (diff0 a) n m); auto; [cbn [diff0 nrow]; lia|]. intros t v Ht Hv. cbn [diff0 at2]. rewrite !Hx by lia. unfold incr. rewrite Nat.add_1_r. reflexivity.
Qed.
Lemma steady_cor_kept : forall infer (o : obj bmpar), bm_cor (o_par (fst (fit infer (bm_fit_np np_cholesky) o (DNp2 (farr 4 2 steady)) (Some (Fin 1))))) = bm_cor (o_par o)
  /\ snd (fit infer (bm_fit_np np_cholesky) o (DNp2 (farr 4 2 steady)) (Some (Fin 1))) = Raise ValueError.
Proof.
  intros infer o. pose proof (C98_bm_fit infer o (farr 4 2 steady) steady 3 2 1 ltac:(lia) ltac:(lia) ltac:(lra) (obs steady)) as F. unfold fit in *. rewrite preprocess_np2 in * by (cbn; lia). unfold bm_fit_np in *.
  assert (V : snd (fit_changes np_cholesky (o_par o) (diff0 (farr 4 2 steady)) (Fin 1)) = Raise ValueError).
  { destruct (fit_changes np_cholesky (o_par o) (diff0 (farr 4 2 steady)) (Fin 1)) as [p r]. apply F. exists 0%nat. split; [lia|]. intros (t & t' & Ht & Ht' & N). apply N. unfold incr, steady. rewrite !Nat.add_1_r, !S_INR. ring. }
  destruct (fit_changes np_cholesky (o_par o) (diff0 (farr 4 2 steady)) (Fin 1)) as [p r] eqn:E. cbn [fst snd o_par] in *. split; [|exact V]. subst r. unfold fit_changes in E. destruct (Nat.ltb 1 _); [|discriminate].
  destruct (existsb _ _).
  - injection E as <-. reflexivity.
  - destruct (np_cholesky (corrcoef (diff0 (farr 4 2 steady)))) as [l|e] eqn:EC; [discriminate|]. exfalso. assert (e = ValueError) by congruence. subst e. clear -EC. unfold np_cholesky in EC. cbn [corrcoef diff0 farr nrow ncol Nat.eqb] in EC.
    assert (G : forall a k, chol_cols a k <> Raise ValueError).
    { clear. intros a k. induction k as [|k IH]; [discriminate|]. cbn [chol_cols]. destruct (chol_cols a k); cbn [bind]; [|congruence]. destruct (ngtb _ _); discriminate. }
    destruct (chol_cols _ 2) eqn:E2 in EC; cbn [bind] in EC; [discriminate|]. assert (e = ValueError) by congruence. subst e. apply (G _ _ E2).
Qed.

(** After failed fits the object can be an inconsistent mixture, and says nothing about it.  Fitted to [apart] (works), then to [doubled]
    (LinAlgError), then to [steady] (ValueError): drift and vol are those of [steady], nll uses the correlation 1 of [doubled], and
    path_sample, which works, correlates the series with the factor of [apart], whose correlation is -1/2. *)
Theorem C122_mixture_refuted : forall infer mvn o, let K := bm_kind np_cholesky mvn in
  let mixed := after infer K o [ask apart; ask doubled; ask steady] in
  snd (history infer K o [ask apart; ask doubled; ask steady]) = [Ok Fitted; Raise LinAlgError; Raise ValueError]
  /\ bm_drift (o_par mixed) = bm_drift (o_par (after infer K o [ask steady])) /\ bm_vol (o_par mixed) = bm_vol (o_par (after infer K o [ask steady]))
  /\ (exists c l, bm_cor (o_par mixed) = Some c /\ bm_L (o_par mixed) = Some (farr 2 2 l) /\ at2 c 0 1 = Fin 1 /\ mmul 2 l (mtr l) 0%nat 1%nat = - (1 / 2))
  /\ forall z, exists out, asked infer K o [ask apart; ask doubled; ask steady] (CSample z X0None None 5 3 None None None true) = Ok (Paths out).
Proof.
  intros infer mvn o K mixed.
  destruct C98_example as (_ & IA & MD & ND). fold apart in IA. fold doubled in MD, ND.
  set (o1 := fst (perform infer K o (ask apart))). set (o2 := fst (perform infer K o1 (ask doubled))). set (o3 := fst (perform infer K o2 (ask steady))).
  assert (EM : mixed = o3) by (unfold mixed; rewrite !after_cons; reflexivity).
  assert (F1 : snd (fit infer (k_fit K) o (DNp2 (farr 4 2 apart)) (Some (Fin 1))) = Ok tt /\ exists l, bm_L (o_par o1) = Some (farr 2 2 l) /\ mmul 2 l (mtr l) 0%nat 1%nat = - (1 / 2)).
  { pose proof (C98_bm_fit infer o _ _ 3 2 1 ltac:(lia) ltac:(lia) ltac:(lra) (obs apart)) as F. unfold o1, ask. rewrite (proj1 (perform_fit_fst _ _ _ _ _ _)). cbn [K k_fit bm_kind]. destruct (fit infer (bm_fit_np np_cholesky) o (DNp2 (farr 4 2 apart)) (Some (Fin 1))) as [f r].
    destruct F as (_ & _ & F). destruct (F IA) as (-> & _ & _ & _ & _ & _ & _ & l & L1 & L2). split; [reflexivity|]. exists l. split; [exact L1|]. rewrite <- apart_cor. symmetry. apply L2; lia. }
  assert (F2 : snd (fit infer (k_fit K) o1 (DNp2 (farr 4 2 doubled)) (Some (Fin 1))) = Raise LinAlgError).
  { pose proof (C98_bm_fit infer o1 _ _ 3 2 1 ltac:(lia) ltac:(lia) ltac:(lra) (obs doubled)) as F. cbn [K k_fit bm_kind]. destruct (fit infer (bm_fit_np np_cholesky) o1 (DNp2 (farr 4 2 doubled)) (Some (Fin 1))) as [f r]. apply F; [exact MD|exact ND]. }
  destruct (steady_cor_kept infer o2) as [C3 F3].
  assert (A1 : snd (perform infer K o (ask apart)) = Ok Fitted) by (unfold ask; rewrite (proj2 (perform_fit_fst _ _ _ _ _ _)), (proj1 F1); reflexivity).
  assert (A2 : snd (perform infer K o1 (ask doubled)) = Raise LinAlgError) by (unfold ask; rewrite (proj2 (perform_fit_fst _ _ _ _ _ _)), F2; reflexivity).
  assert (A3 : snd (perform infer K o2 (ask steady)) = Raise ValueError) by (unfold ask; rewrite (proj2 (perform_fit_fst _ _ _ _ _ _)); cbn [K k_fit bm_kind]; rewrite F3; reflexivity).
  split; [rewrite !answers_cons; fold o1; fold o2; rewrite A1, A2, A3; reflexivity|].
  assert (RD : readable infer (DNp2 (farr 4 2 steady)) (Some (Fin 1))) by (exists no_index, (farr 4 2 steady); repeat split; discriminate).
  destruct (proj1 (C122_bm_parts np_cholesky mvn K (or_introl eq_refl) infer o [ask apart; ask doubled] (DNp2 (farr 4 2 steady)) (Some (Fin 1)) []) RD ltac:(intros ? ? []) o) as [D1 D2].
  split; [exact D1|]. split; [exact D2|].
  assert (HL : bm_L (o_par o3) = bm_L (o_par o1)).
  { assert (EA : after infer K o1 [ask doubled; ask steady] = o3) by (rewrite !after_cons; reflexivity). rewrite <- EA. apply (C122_bm_parts np_cholesky mvn K (or_introl eq_refl) infer o1 [] (DNp2 (farr 4 2 steady)) None).
    intros i x dt Hi. rewrite !answers_cons. fold o2. rewrite A2, A3. destruct i as [|[|[|i]]]; cbn [nth_error]; eauto; discriminate. }
  destruct F1 as (_ & l & L1 & L2).
  split.
  - destruct (fit_cor_of infer o1 _ _ 3 2 1 ltac:(lia) ltac:(lia) ltac:(lra) (obs doubled) MD) as (c & E1 & _ & _ & E2). exists c, l. rewrite EM. repeat split.
    + unfold o3, ask. rewrite (proj1 (perform_fit_fst _ _ _ _ _ _)). cbn [K k_fit bm_kind]. rewrite C3. unfold o2, ask. rewrite (proj1 (perform_fit_fst _ _ _ _ _ _)). exact E1.
    + rewrite HL. exact L1.
    + rewrite E2 by lia. rewrite doubled_cor. reflexivity.
    + exact L2.
  - intros z. unfold asked. fold mixed. rewrite EM in *. cbn [perform].
    assert (EF : o_fit o3 = mkFit COther (Some 4%nat) (Some 2%nat) no_index None (Some (Fin 1)) (Some (row (farr 4 2 steady) 0)) (Some (row (farr 4 2 steady) 3))).
    { unfold o3, ask. rewrite (proj1 (perform_fit_fst _ _ _ _ _ _)). unfold fit. rewrite preprocess_np2 by (cbn; lia). destruct (k_fit K _ _ _). reflexivity. }
    assert (LD : length (bm_drift (o_par o3)) = 2%nat /\ length (bm_vol (o_par o3)) = 2%nat).
    { unfold o3, ask. rewrite (proj1 (perform_fit_fst _ _ _ _ _ _)). unfold fit. rewrite preprocess_np2 by (cbn; lia). cbn [K k_fit bm_kind]. unfold bm_fit_np.
      assert (G : forall p, length (bm_drift (fst (fit_changes np_cholesky p (diff0 (farr 4 2 steady)) (Fin 1)))) = 2%nat /\ length (bm_vol (fst (fit_changes np_cholesky p (diff0 (farr 4 2 steady)) (Fin 1)))) = 2%nat).
      { intros p. unfold fit_changes. destruct (Nat.ltb _ _); [|cbn; rewrite ?map_length; auto]. destruct (existsb _ _); [split; reflexivity|]. destruct (np_cholesky _); split; reflexivity. }
      specialize (G (o_par o2)). destruct (fit_changes np_cholesky (o_par o2) (diff0 (farr 4 2 steady)) (Fin 1)). exact G. }
    rewrite EF. unfold path_sample, preprocess_path. cbn [f_x0 f_xn f_idx f_dt is_some oelse]. cbn -[bm_path_np row farr K]. unfold ngtb, nltb. rewrite (proj2 (rltb_true 0 1)) by lra. cbn -[bm_path_np row farr K].
    change (k_path K (o_par o3) z) with (bm_path_np (o_par o3) z). unfold bm_path_np. rewrite (proj1 LD). cbn [row farr ncol seq map at2 set_x0 length]. cbn -[fill_noise scale_dt cumsum filled].
    unfold fill_noise. rewrite HL, L1. unfold bfits, scale_dt. rewrite !map_length. destruct LD as [-> ->]. cbn -[cumsum filled correlate bget]. eexists. reflexivity.
Qed.
Print Assumptions C122_mixture_refuted.

(** The mixture heals: whatever happened before, a fit that works gives the object of a first fit. *)
Example C122_fresh_start_ex : forall infer mvn o, let K := bm_kind np_cholesky mvn in
  asked infer K o [ask apart; ask doubled; ask steady] (ask apart) = Ok Fitted
  /\ o_par (after infer K o ([ask apart; ask doubled; ask steady] ++ [ask apart])) = o_par (after infer K o ([] ++ [ask apart])).
Proof.
  intros infer mvn o K. assert (A : asked infer K o [] (ask apart) = Ok Fitted).
  { pose proof (proj1 (C122_mixture_refuted infer mvn o)) as H. fold K in H. rewrite answers_cons in H. unfold asked. change (after infer K o []) with o. congruence. }
  assert (B : asked infer K o [ask apart; ask doubled; ask steady] (ask apart) = Ok Fitted).
  { rewrite <- A. apply (C122_fit_outcome np_cholesky mvn bmpar K (is_bm np_cholesky mvn)). }
  split; [exact B|]. apply (C122_fresh_start np_cholesky mvn bmpar K (is_bm np_cholesky mvn) infer o _ o [] _ _ B).
Qed.
(** Scores in between change nothing in the parameters; data that cannot be read change nothing in them either. *)
Example C122_parts_ex : forall infer mvn o y dt, let K := bm_kind np_cholesky mvn in
  readable infer (DNp2 (farr 4 2 steady)) (Some (Fin 1)) /\ ~ readable infer DOther None
  /\ bm_vol (o_par (after infer K o ([ask apart; CNll y dt] ++ ask steady :: [CFit DOther None; CAic y dt]))) = bm_vol (o_par (after infer K o [ask steady]))
  /\ after infer K o [] = o /\ o_par (after infer K o [ask apart; CNll y dt]) = o_par (after infer K o [ask apart]).
Proof.
  intros infer mvn o y dt K. assert (R1 : readable infer (DNp2 (farr 4 2 steady)) (Some (Fin 1))) by (exists no_index, (farr 4 2 steady); repeat split; discriminate).
  assert (R2 : ~ readable infer DOther None) by (intros (ix & v & _ & H & _); discriminate).
  split; [exact R1|]. split; [exact R2|]. split; [|split; [reflexivity|]].
  - apply (proj1 (C122_bm_parts np_cholesky mvn K (or_introl eq_refl) infer o [ask apart; CNll y dt] _ _ [CFit DOther None; CAic y dt]) R1). intros z dt' [H|[H|[]]]; [|discriminate]. injection H as <- <-. exact R2.
  - apply (C122_only_fits_count bmpar infer K o [ask apart; CNll y dt]).
Qed.
(** An Ornstein-Uhlenbeck model fitted to 0, 1, 3, then to something unreadable. *)
Example C122_ou_parts_ex : forall chol mvn infer o fresh, let K := ou_kind chol mvn in let x := DNp2 (farr 3 1 (fun t _ => match t with 0%nat => 0 | 1%nat => 1 | _ => 3 end)) in
  asked infer K o [] (CFit x (Some (Fin 1))) = Ok Fitted /\ fits_raise infer K (after infer K o ([] ++ [CFit x (Some (Fin 1))])) [CFit DOther None]
  /\ ou_mrr (o_par (after infer K o ([] ++ CFit x (Some (Fin 1)) :: [CFit DOther None]))) = ou_mrr (o_par (after infer K fresh [CFit x (Some (Fin 1))])).
Proof.
  intros chol mvn infer o fresh K x. assert (A : asked infer K o [] (CFit x (Some (Fin 1))) = Ok Fitted).
  { unfold asked. change (after infer K o []) with o. apply perform_fit_ok. split; [|reflexivity]. unfold fit, x. rewrite preprocess_np2 by (cbn; lia). cbn [K k_fit ou_kind]. unfold ou_fit_np.
    change (ncol (farr 3 1 _)) with 1%nat. cbn [seq mapM]. unfold ou_fit_col. cbn -[ndiv nlog nsub nmul nstd nsqrt nmean nleb slope_tol nadd lstsq_line].
    destruct (lstsq_line _ _) as [w|e] eqn:E; [reflexivity|]. exfalso. revert E. unfold lstsq_line. cbn [forallb is_fin andb]. cbv zeta. destruct (reqb _ _); discriminate. }
  assert (B : fits_raise infer K (after infer K o ([] ++ [CFit x (Some (Fin 1))])) [CFit DOther None]).
  { intros i y dt Hi. destruct i as [|[|i]]; try discriminate. rewrite answers_cons. cbn [nth_error]. exists ValueError. reflexivity. }
  split; [exact A|]. split; [exact B|]. pose proof (proj1 (C122_ou_parts chol mvn infer o [] x (Some (Fin 1)) [CFit DOther None]) A B fresh) as H. cbv zeta in H. fold K in H. congruence.
Qed.
(** A model built from a correlation matrix, fitted and scored without failure. *)
Example C122_factor_matches_ex : forall infer mvn y, let K := bm_kind np_cholesky mvn in
  exists o, bm_new np_cholesky (DList [Fin 0; Fin 0]) (DList [Fin 1; Fin 1]) (Some (farr 2 2 mid)) = Ok o /\ fits_succeed infer K o [ask apart; CNll y None]
    /\ let p := o_par (after infer K o [ask apart; CNll y None]) in factor_matches np_cholesky (bm_cor p) (bm_L p).
Proof.
  intros infer mvn y K. destruct (bm_new np_cholesky (DList [Fin 0; Fin 0]) (DList [Fin 1; Fin 1]) (Some (farr 2 2 mid))) as [o|e] eqn:E.
  - exists o. split; [reflexivity|]. assert (HS : fits_succeed infer K o [ask apart; CNll y None]).
    { intros i x dt Hi. destruct i as [|[|[|i]]]; try discriminate. rewrite answers_cons. cbn [nth_error]. f_equal. pose proof (proj1 (C122_mixture_refuted infer mvn o)) as H. fold K in H. rewrite answers_cons in H. congruence. }
    split; [exact HS|]. destruct (C122_factor_matches np_cholesky mvn) as (F & _ & N & _). apply (F K infer o _ (or_introl eq_refl)); [|exact HS]. apply (N _ _ _ _ E).
  - exfalso. assert (P2 : posdef 2 mid).
    { split; [intros i j _ _; unfold mtr, mid; rewrite (Nat.eqb_sym j i); reflexivity|]. intros x (i & Hi & Hx). unfold quad. rewrite !S_succ, !S_0. unfold mid. cbn [Nat.eqb].
      assert (0 < x 0%nat * x 0%nat + x 1%nat * x 1%nat); [|nra]. destruct i as [|[|i]]; [| |lia]; [assert (0 < x 0%nat * x 0%nat) by (apply Rsqr_pos_lt, Hx); pose proof (Rle_0_sqr (x 1%nat))|assert (0 < x 1%nat * x 1%nat) by (apply Rsqr_pos_lt, Hx); pose proof (Rle_0_sqr (x 0%nat))]; unfold Rsqr in *; lra. }
    destruct (proj1 (np_cholesky_spec 2 mid (proj1 P2)) P2) as (l & El & _). unfold bm_new, bm_init in E. cbn [to_row bind] in E. rewrite El in E. discriminate.
Qed.
