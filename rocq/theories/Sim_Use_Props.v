(** Properties C29-C32 and C75: how fit, nll, aic, bic and path_sample interact on one model object. *)
From Coq Require Import Reals Lra String ZArith List Arith Bool Lia.
From Verif Require Import Base Num Sim_Model Sim_Spec Sim_Proofs Sim_Fit_Proofs.
Import ListNotations.
Open Scope R_scope.

(* ------------------------------------------------------------------ *)
(** ** Specification vocabulary *)

(** The three scoring methods. *)
Definition scoring {P} (S : (list Z -> res (option string)) -> (P -> arr2 -> num -> res num) -> obj P -> sdata -> option num -> obj P * res num) : Prop :=
  S = nll \/ S = aic \/ S = bic.

(** Objects reachable from [o] by any sequence of calls of fit, nll, aic and bic, whether or not they raise. *)
Inductive used {P} infer (fit_np : P -> arr2 -> num -> P * res unit) (nll_np : P -> arr2 -> num -> res num) (o : obj P) : obj P -> Prop :=
| used_new : used infer fit_np nll_np o o
| used_fit : forall o' x dt, used infer fit_np nll_np o o' -> used infer fit_np nll_np o (fst (fit infer fit_np o' x dt))
| used_score : forall o' S x dt, used infer fit_np nll_np o o' -> scoring S -> used infer fit_np nll_np o (fst (S infer nll_np o' x dt)).

(** smallest / largest stamp of the date index of x; none without a date index *)
Definition least_stamp (x : sdata) (m : option Z) : Prop :=
  match dates x with
  | None => m = None
  | Some st => match m with Some m => In m st /\ forall s, In s st -> (m <= s)%Z | None => st = [] end
  end.
Definition greatest_stamp (x : sdata) (m : option Z) : Prop :=
  match dates x with
  | None => m = None
  | Some st => match m with Some m => In m st /\ forall s, In s st -> (s <= m)%Z | None => st = [] end
  end.

(* ------------------------------------------------------------------ *)
(** ** Helpers *)

Lemma fold_min_spec : forall l a m, fold_left Z.min l a = m -> (In m (a :: l)) /\ (forall s, In s (a :: l) -> (m <= s)%Z).
Proof.
  induction l as [|b l IH]; intros a m H; simpl in H.
  - subst m. split; [left; reflexivity|]. intros s [->|[]]. lia.
  - destruct (IH _ _ H) as [H1 H2]. split.
    + destruct H1 as [E|E]; [|right; right; auto]. destruct (Z.min_spec a b) as [[? E']|[? E']]; rewrite E' in E; [left|right; left]; auto.
    + intros s [<-|[<-|Hs]].
      * assert (m <= Z.min a b)%Z by (apply H2; left; auto). lia.
      * assert (m <= Z.min a b)%Z by (apply H2; left; auto). lia.
      * apply H2. right. auto.
Qed.
Lemma fold_max_spec : forall l a m, fold_left Z.max l a = m -> (In m (a :: l)) /\ (forall s, In s (a :: l) -> (s <= m)%Z).
Proof.
  induction l as [|b l IH]; intros a m H; simpl in H.
  - subst m. split; [left; reflexivity|]. intros s [->|[]]. lia.
  - destruct (IH _ _ H) as [H1 H2]. split.
    + destruct H1 as [E|E]; [|right; right; auto]. destruct (Z.max_spec a b) as [[? E']|[? E']]; rewrite E' in E; [right; left|left]; auto.
    + intros s [<-|[<-|Hs]].
      * assert (Z.max a b <= m)%Z by (apply H2; left; auto). lia.
      * assert (Z.max a b <= m)%Z by (apply H2; left; auto). lia.
      * apply H2. right. auto.
Qed.
Lemma least_unique : forall x m m', least_stamp x m -> least_stamp x m' -> m = m'.
Proof.
  unfold least_stamp. intros x m m'. destruct (dates x) as [st|]; [|congruence]. destruct m, m'.
  - intros [A B] [C D]. f_equal. apply B in C. apply D in A. lia.
  - intros [A B] ->. destruct A.
  - intros -> [A B]. destruct A.
  - auto.
Qed.
Lemma greatest_unique : forall x m m', greatest_stamp x m -> greatest_stamp x m' -> m = m'.
Proof.
  unfold greatest_stamp. intros x m m'. destruct (dates x) as [st|]; [|congruence]. destruct m, m'.
  - intros [A B] [C D]. f_equal. apply B in C. apply D in A. lia.
  - intros [A B] ->. destruct A.
  - intros -> [A B]. destruct A.
  - auto.
Qed.
Lemma index_info_min : forall infer x ix, index_info infer x = Ok ix -> least_stamp x (ix_min ix) /\ greatest_stamp x (ix_max ix).
Proof.
  intros infer x ix H. unfold index_info in H. unfold least_stamp, greatest_stamp.
  pose proof (dates_index x) as D. destruct (get_date_time_index x) as [|nm st]; rewrite D.
  - injection H as <-. cbn. auto.
  - apply bind_ok in H as (f & _ & H). injection H as <-. cbn [ix_min ix_max]. destruct st as [|a l]; cbn; auto.
    pose proof (fold_min_spec l a _ eq_refl). pose proof (fold_max_spec l a _ eq_refl). auto.
Qed.

(** what a successful preprocessing leaves behind *)
Lemma preprocess_fit_ok : forall infer st x dt st' v d, preprocess_fit infer st x dt = (st', Ok (v, d)) ->
  exists ix, index_info infer x = Ok ix /\ to_numpy2 x = Ok v /\ (0 < nrow v)%nat
    /\ st' = mkFit (type_of x) (Some (nrow v)) (Some (ncol v)) ix (get_column_names x) (Some d) (Some (row v 0)) (Some (row v (nrow v - 1)))
    /\ match dt with
       | Some d' => d = d'
       | None => match ix_freq ix with Some f => exists r, freq_to_duration f = Some r /\ d = Fin r | None => d = Fin (1 / 252) end
       end
    /\ forall st2, preprocess_fit infer st2 x dt = (st', Ok (v, d)).
Proof.
  intros infer st x dt st' v d H. unfold preprocess_fit in *. destruct (index_info infer x) as [ix|]; [|discriminate].
  destruct (to_numpy2 x) as [w|]; [|discriminate]. destruct (Nat.eqb_spec (nrow w) 0); [discriminate|].
  cbn [f_cont f_rows f_cols f_idx f_names f_dt f_x0 f_xn] in *. exists ix.
  destruct dt as [d'|].
  - injection H as <- <- <-. repeat split; auto; lia.
  - destruct (ix_freq ix) as [f|].
    + destruct (freq_to_duration f) as [r|]; [|discriminate]. injection H as <- <- <-. repeat split; eauto; lia.
    + injection H as <- <- <-. repeat split; auto; lia.
Qed.

Lemma preprocess_fit_cont : forall infer st x dt,
  f_cont (fst (preprocess_fit infer st x dt)) = type_of x.
Proof.
  intros. unfold preprocess_fit. destruct (index_info infer x) as [ix|]; [|reflexivity]. destruct (to_numpy2 x) as [v|]; [|reflexivity].
  destruct (Nat.eqb (nrow v) 0); [reflexivity|]. destruct dt; [reflexivity|]. destruct (ix_freq ix) as [s|]; [|reflexivity].
  destruct (freq_to_duration s); reflexivity.
Qed.
Lemma preprocess_fit_idx : forall infer st x dt,
  f_idx (fst (preprocess_fit infer st x dt)) = match index_info infer x with Ok ix => ix | Raise _ => f_idx st end.
Proof.
  intros. unfold preprocess_fit. destruct (index_info infer x) as [ix|]; [|reflexivity]. destruct (to_numpy2 x) as [v|]; [|reflexivity].
  destruct (Nat.eqb (nrow v) 0); [reflexivity|]. destruct dt; [reflexivity|]. destruct (ix_freq ix) as [s|] eqn:E; [|reflexivity].
  destruct (freq_to_duration s); reflexivity.
Qed.

Lemma scoring_inv : forall P S infer nll_np (o : obj P) x dt, scoring S ->
  let st := fst (preprocess_fit infer (o_fit o) x dt) in fst (S infer nll_np o x dt) = mkObj (o_par o) (o_k o) st.
Proof.
  intros P S infer nll_np o x dt H st. subst st.
  destruct H as [->|[->| ->]]; unfold nll, aic, bic, score; destruct (preprocess_fit infer (o_fit o) x dt) as [st [[v d]|e]]; reflexivity.
Qed.
Lemma scoring_ok : forall P S infer nll_np (o : obj P) x dt w, scoring S -> snd (S infer nll_np o x dt) = Ok w ->
  exists v d, snd (preprocess_fit infer (o_fit o) x dt) = Ok (v, d).
Proof.
  intros P S infer nll_np o x dt w H Hs.
  destruct H as [->|[->| ->]]; unfold nll, aic, bic, score in Hs; destruct (preprocess_fit infer (o_fit o) x dt) as [st [[v d]|e]]; cbn in *; eauto; discriminate.
Qed.

(* ------------------------------------------------------------------ *)
(** ** C29 Scoring changes the model *)

(** Scoring on a numpy array: parameters stay, and the next path_sample() starts at the first row of the scored array and
    steps by the dt given there, exactly as a never-fitted model told so explicitly. *)
Theorem C29_scoring_replaces_fit : forall P S infer nll_np (o : obj P) y dt',
  scoring S -> (0 < nrow y)%nat ->
  let o' := fst (S infer nll_np o (DNp2 y) (Some dt')) in
  o_par o' = o_par o /\ o_k o' = o_k o
  /\ forall default sampler steps paths,
       path_sample (o_fit o') default sampler X0None None steps paths None None None true
       = path_sample unfitted default sampler (X0Data (DNp1 (row y 0))) (Some dt') steps paths None None None true.
Proof.
  intros P S infer nll_np o y dt' HS Hy o'. subst o'. rewrite (scoring_inv _ _ _ _ _ _ _ HS). cbn [o_par o_k o_fit].
  rewrite preprocess_np2 by auto. cbn [fst]. split; [auto|split; [auto|]].
  intros. unfold path_sample, preprocess_path.
  cbn [f_x0 f_xn f_idx f_dt unfitted to_row bind fst snd is_some ix_has no_index orb ix_min ix_freq].
  destruct (ngtb dt' (Fin 0)); cbn [bind]; [|reflexivity]. destruct (sampler (row y 0) dt' steps paths); reflexivity.
Qed.
Print Assumptions C29_scoring_replaces_fit.

(** Any data, any arguments: once a score has been returned, nothing of the earlier fits is left in the fit information. *)
Theorem C29_scoring_forgets : forall P S infer nll_np (o1 o2 : obj P) y dt w,
  scoring S -> snd (S infer nll_np o1 y dt) = Ok w ->
  o_fit (fst (S infer nll_np o1 y dt)) = o_fit (fst (S infer nll_np o2 y dt)).
Proof.
  intros P S infer nll_np o1 o2 y dt w HS H. rewrite !(scoring_inv _ _ _ _ _ _ _ HS). cbn [o_fit].
  destruct (scoring_ok _ _ _ _ _ _ _ _ HS H) as (v & d & E).
  destruct (preprocess_fit infer (o_fit o1) y dt) as [st r] eqn:E1. cbn in E. subst r.
  destruct (preprocess_fit_ok _ _ _ _ _ _ _ E1) as (ix & _ & _ & _ & _ & _ & H2). rewrite H2. reflexivity.
Qed.
Print Assumptions C29_scoring_forgets.

Example C29_example : (* a model fitted from 5, scored on data starting at 7: simulation now starts at 7 *)
  let fitted := mkObj (mkBM [Fin 1] [Fin 1] None None) (Fin 2)
     (mkFit COther (Some 2%nat) (Some 1%nat) no_index None (Some (Fin 1)) (Some [Fin 5]) (Some [Fin 6])) in
  let scored := fst (nll (fun _ => Ok None) (bm_nll_np (fun _ _ _ => Ok NaN)) fitted (DNp2 (mkArr 2 1 (fun i _ => Fin (7 + INR i)))) (Some (Fin 2))) in
  preprocess_path (o_fit fitted) (Fin 0) X0None (Some (Fin 1)) None None = preprocess_path unfitted (Fin 0) (X0Data (DList [Fin 5])) (Some (Fin 1)) None None
  /\ f_x0 (o_fit scored) = Some [Fin (7 + INR 0)] /\ f_dt (o_fit scored) = Some (Fin 2).
Proof. repeat split. Qed.

(* ------------------------------------------------------------------ *)
(** ** C30 AIC and BIC *)

Lemma used_k : forall P infer fit_np nll_np (o o' : obj P), used infer fit_np nll_np o o' -> o_k o' = o_k o.
Proof.
  induction 1 as [|o' x dt _ IH|o' S x dt _ IH HS]; auto.
  - rewrite <- IH. unfold fit. destruct (preprocess_fit infer (o_fit o') x dt) as [st [[v d]|e]]; [|reflexivity].
    destruct (fit_np (o_par o') v d). reflexivity.
  - rewrite (scoring_inv _ _ _ _ _ _ _ HS). exact IH.
Qed.

Lemma score_values : forall P infer nll_np (o : obj P) x dt k n l, o_k o = Fin (INR k) ->
  shape0 x = Ok n -> (0 < n)%nat -> snd (nll infer nll_np o x dt) = Ok (Fin l) ->
  snd (aic infer nll_np o x dt) = Ok (Fin (2 * INR k + 2 * INR n * l))
  /\ snd (bic infer nll_np o x dt) = Ok (Fin (2 * INR k * ln (INR n) + 2 * INR n * l)).
Proof.
  intros P infer nll_np o x dt k n l Hk Hn Hp H. unfold nll, aic, bic, score in *.
  destruct (preprocess_fit infer (o_fit o) x dt) as [st [[v d]|e]]; cbn [snd] in *; [|discriminate].
  rewrite Hn, H, Hk. cbn [bind]. unfold nofnat. rewrite nlog_fin by (apply lt_0_INR; auto). cbn [nmul nadd].
  split; do 2 f_equal; ring.
Qed.

(** k = 2 for (geometric) Brownian motion, 3 for Ornstein-Uhlenbeck, whatever the number of variates and whatever was
    called on the model before. *)
Theorem C30_bm_aic_bic : forall chol drift vol cor o infer fit_np nll_np o' x dt n l,
  bm_new chol drift vol cor = Ok o -> used infer fit_np nll_np o o' ->
  data_rows x = Some n -> (0 < n)%nat -> snd (nll infer nll_np o' x dt) = Ok (Fin l) ->
  snd (aic infer nll_np o' x dt) = Ok (Fin (2 * 2 + 2 * INR n * l))
  /\ snd (bic infer nll_np o' x dt) = Ok (Fin (2 * 2 * ln (INR n) + 2 * INR n * l)).
Proof.
  intros chol drift vol cor o infer fit_np nll_np o' x dt n l Ho Hu Hn Hp H.
  apply (score_values _ infer nll_np o' x dt 2 n l); auto using data_rows_shape. rewrite (used_k _ _ _ _ _ _ Hu).
  unfold bm_new in Ho. apply bind_ok in Ho as (m & _ & Ho). injection Ho as <-. cbn [o_k]. unfold bm_num_parameters, len_2d, nofnat.
  destruct (bm_cor m); cbn [nadd]; [|f_equal; simpl; ring]. cbn [Nat.mul Nat.sub Nat.add]. rewrite ndiv_fin by lra. cbn [nadd].
  f_equal. simpl. field.
Qed.
Print Assumptions C30_bm_aic_bic.

Theorem C30_ou_aic_bic : forall chol mean mrr vol cor o infer fit_np nll_np o' x dt n l,
  ou_new chol mean mrr vol cor = Ok o -> used infer fit_np nll_np o o' ->
  data_rows x = Some n -> (0 < n)%nat -> snd (nll infer nll_np o' x dt) = Ok (Fin l) ->
  snd (aic infer nll_np o' x dt) = Ok (Fin (2 * 3 + 2 * INR n * l))
  /\ snd (bic infer nll_np o' x dt) = Ok (Fin (2 * 3 * ln (INR n) + 2 * INR n * l)).
Proof.
  intros chol mean mrr vol cor o infer fit_np nll_np o' x dt n l Ho Hu Hn Hp H.
  replace 3 with (INR 3) by (simpl; ring).
  apply (score_values _ infer nll_np o' x dt 3 n l); auto using data_rows_shape. rewrite (used_k _ _ _ _ _ _ Hu).
  unfold ou_new in Ho. apply bind_ok in Ho as (m & _ & Ho). injection Ho as <-. cbn [o_k]. unfold ou_num_parameters, len_2d, nofnat.
  destruct (ou_cor m); cbn [nadd]; [|f_equal; simpl; ring]. cbn [Nat.mul Nat.sub Nat.add]. rewrite ndiv_fin by lra. cbn [nadd].
  f_equal. simpl. field.
Qed.
Print Assumptions C30_ou_aic_bic.

(** The textbook values 2k + 2 nll and k ln n + 2 nll are obtained only in degenerate cases. *)
Theorem C30_aic_textbook_iff : forall chol drift vol cor o infer fit_np nll_np o' x dt n l,
  bm_new chol drift vol cor = Ok o -> used infer fit_np nll_np o o' ->
  data_rows x = Some n -> (0 < n)%nat -> snd (nll infer nll_np o' x dt) = Ok (Fin l) ->
  (snd (aic infer nll_np o' x dt) = Ok (Fin (2 * 2 + 2 * l)) <-> n = 1%nat \/ l = 0).
Proof.
  intros chol drift vol cor o infer fit_np nll_np o' x dt n l Ho Hu Hn Hp H.
  destruct (C30_bm_aic_bic _ _ _ _ _ _ _ _ _ _ _ _ _ Ho Hu Hn Hp H) as [-> _]. split.
  - intros E. apply (f_equal (fun r => match r with Ok (Fin q) => q | _ => 0 end)) in E. cbv beta iota in E.
    assert (E' : (INR n - 1) * l = 0) by lra. apply Rmult_integral in E' as [E'|E']; [left|right; auto].
    apply INR_eq. simpl. lra.
  - intros [->| ->]; do 2 f_equal; simpl; ring.
Qed.
Print Assumptions C30_aic_textbook_iff.

Example C30_example : exists o, bm_new (fun a => Ok a) (DScalar (Fin 0)) (DScalar (Fin 1)) None = Ok o
  /\ exists l, snd (nll (fun _ => Ok None) (bm_nll_np (fun _ _ _ => Ok NaN)) o (DNp1 [Fin 0; Fin 1; Fin 2]) (Some (Fin 1))) = Ok (Fin l).
Proof.
  eexists. split; [reflexivity|]. cbn. unfold bm_nll_np, nll_with, nll_indep. cbn.
  unfold norm_logpdf, ngtb, nltb, nsqrt, nmul. rewrite (proj2 (rltb_false 1 0)) by lra. rewrite sqrt_1.
  rewrite (proj2 (rltb_true 0 (1 * 1))) by lra.
  rewrite (proj2 (rltb_false (2 * PI) 0)) by (pose proof PI_RGT_0; lra).
  rewrite !(nlog_fin (1 * 1)) by lra. rewrite nlog_fin by (apply sqrt_lt_R0; pose proof PI_RGT_0; lra).
  unfold nsub, nadd, nneg. rewrite !ndiv_fin by lra. cbn [nsqr nmul]. unfold nsqr, nmul. rewrite !ndiv_fin by lra. cbn. eauto.
Qed.

(* ------------------------------------------------------------------ *)
(** ** C31 Defaults of path_sample *)

(** x0 = None on a never-fitted model means the default of the class; "first", "last" are rejected there, and any other
    string is rejected always. *)
Theorem C31_unfitted_defaults : forall default sampler dt steps P ls lf columns incl,
  path_sample unfitted default sampler X0None dt steps P ls lf columns incl
  = path_sample unfitted default sampler (X0Data (DScalar default)) dt steps P ls lf columns incl
  /\ path_sample unfitted default sampler (X0Str "first") dt steps P ls lf columns incl = Raise ValueError
  /\ path_sample unfitted default sampler (X0Str "last") dt steps P ls lf columns incl = Raise ValueError
  /\ forall x0, path_sample unfitted default sampler x0 None steps P ls lf columns incl
                = path_sample unfitted default sampler x0 (Some (Fin (1 / 252))) steps P ls lf columns incl.
Proof. intros. unfold path_sample, preprocess_path. repeat split; auto. Qed.
Print Assumptions C31_unfitted_defaults.

Theorem C31_other_strings : forall st default sampler s dt steps P ls lf columns incl,
  s <> "first"%string -> s <> "last"%string ->
  path_sample st default sampler (X0Str s) dt steps P ls lf columns incl = Raise ValueError.
Proof.
  intros st default sampler s dt steps P ls lf columns incl H1 H2. unfold path_sample, preprocess_path.
  apply String.eqb_neq in H1, H2. rewrite H1, H2. reflexivity.
Qed.
Print Assumptions C31_other_strings.

(** After a successful fit on x (from any earlier state of the object): None and "first" are the first row of x, "last" is
    its last row; a missing label_start is the smallest, for "last" the largest, stamp of x. *)
Theorem C31_fitted_x0 : forall T infer fit_np (o o' : obj T) x dtf r1 rn first last,
  fit infer fit_np o x dtf = (o', Ok tt) -> first_obs x = Some r1 -> last_obs x = Some rn ->
  least_stamp x first -> greatest_stamp x last ->
  forall default sampler dt steps P ls lf columns incl,
    let call x0 start := path_sample (o_fit o') default sampler x0 dt steps P start lf columns incl in
    let orelse a b := match a with Some _ => a | None => b end in
    call X0None ls = call (X0Data (DNp1 r1)) (orelse ls first)
    /\ call (X0Str "first") ls = call (X0Data (DNp1 r1)) (orelse ls first)
    /\ call (X0Str "last") ls = call (X0Data (DNp1 rn)) (orelse ls last).
Proof.
  intros T infer fit_np o o' x dtf r1 rn first last H Hf Hl Hmin Hmax default sampler dt steps P ls lf columns incl call orelse. subst call orelse. cbv beta.
  unfold fit in H. destruct (preprocess_fit infer (o_fit o) x dtf) as [st [[v' d]|e]] eqn:E; [|discriminate].
  destruct (fit_np (o_par o) v' d) as [p r]. injection H as <- _. cbn [o_fit].
  destruct (preprocess_fit_ok _ _ _ _ _ _ _ E) as (ix & Hix & Hv' & Hrow & Est & _). clear E.
  destruct (first_obs_row x v' Hv' Hrow) as [F1 F2]. rewrite F1 in Hf. rewrite F2 in Hl. injection Hf as <-. injection Hl as <-.
  destruct (index_info_min _ _ _ Hix) as [M1 M2].
  rewrite (least_unique _ _ _ Hmin M1), (greatest_unique _ _ _ Hmax M2). clear Hmin Hmax M1 M2 first last.
  subst st. unfold path_sample, preprocess_path. cbn [f_x0 f_xn f_idx f_dt to_row bind].
  change (String.eqb "first" "first") with true. change (String.eqb "last" "first") with false. change (String.eqb "last" "last") with true.
  cbv iota. cbn [bind fst snd].
  assert (Hno : ix_has ix = false -> ix_min ix = None /\ ix_max ix = None).
  { unfold index_info in Hix. destruct (get_date_time_index x); [injection Hix as <-; auto|].
    apply bind_ok in Hix as (f & _ & Hix). injection Hix as <-. discriminate. }
  destruct ls as [s|]; [repeat split|]. destruct (ix_has ix) eqn:Eh; [destruct (ix_min ix), (ix_max ix), lf; repeat split|].
  destruct (Hno eq_refl) as [-> ->]. destruct lf; repeat split.
Qed.
Print Assumptions C31_fitted_x0.

(** dt = None after a successful fit means the dt of that fit: the one given there, else the duration of the inferred
    frequency, else 1/252.  It does not depend on label_freq. *)
Theorem C31_fitted_dt : forall T infer fit_np (o o' : obj T) x dtf,
  fit infer fit_np o x dtf = (o', Ok tt) ->
  exists d,
    (forall default sampler x0 steps P ls lf columns incl,
       path_sample (o_fit o') default sampler x0 None steps P ls lf columns incl
       = path_sample (o_fit o') default sampler x0 (Some d) steps P ls lf columns incl)
    /\ match dtf with
       | Some d' => d = d'
       | None => match dates x with
                 | None => d = Fin (1 / 252)
                 | Some stamps => match infer stamps with
                                  | Ok (Some f) => exists y, years f y /\ d = Fin y
                                  | Ok None => d = Fin (1 / 252)
                                  | Raise _ => False
                                  end
                 end
       end.
Proof.
  intros T infer fit_np o o' x dtf H. unfold fit in H.
  destruct (preprocess_fit infer (o_fit o) x dtf) as [st [[v' d]|e]] eqn:E; [|discriminate].
  destruct (fit_np (o_par o) v' d) as [p r]. injection H as <- _. cbn [o_fit].
  destruct (preprocess_fit_ok _ _ _ _ _ _ _ E) as (ix & Hix & Hv' & _ & Est & Hd & _). clear E.
  exists d. split.
  - intros. subst st. reflexivity.
  - destruct dtf; [auto|]. unfold index_info in Hix. pose proof (dates_index x) as D. destruct (get_date_time_index x) as [|nm stm]; rewrite D.
    + injection Hix as <-. exact Hd.
    + destruct (infer stm) as [[f|]|]; [| |discriminate]; injection Hix as <-; cbn in Hd; [|exact Hd].
      destruct Hd as (y & Hy & ->). exists y. split; [apply years_table; exact Hy|reflexivity].
Qed.
Print Assumptions C31_fitted_dt.

(** A dt that is not a positive number is rejected. *)
Theorem C31_dt_positive : forall st default sampler x0 d steps P ls lf columns incl out,
  path_sample st default sampler x0 (Some d) steps P ls lf columns incl = Ok out -> d = PInf \/ exists r, d = Fin r /\ 0 < r.
Proof.
  intros st default sampler x0 d steps P ls lf columns incl out H. apply path_sample_inv in H as (x & d' & ls' & lf' & a & Hp & _).
  unfold preprocess_path in Hp. apply bind_ok in Hp as (p & _ & Hp). cbn [bind] in Hp.
  destruct (ngtb d (Fin 0)) eqn:E; [|discriminate]. destruct d; try discriminate; auto.
  right. exists r. split; auto. apply rltb_true. exact E.
Qed.
Print Assumptions C31_dt_positive.

Theorem C31_bad_dt_assertion : forall st default sampler x d steps P ls lf columns incl r,
  entries x = Some r -> ngtb d (Fin 0) = false ->
  path_sample st default sampler (X0Data x) (Some d) steps P ls lf columns incl = Raise AssertionError.
Proof.
  intros st default sampler x d steps P ls lf columns incl r Hr Hd. apply entries_row in Hr. unfold path_sample, preprocess_path. rewrite Hr. cbn [bind].
  rewrite Hd. reflexivity.
Qed.
Print Assumptions C31_bad_dt_assertion.

Example C31_example : exists o', fit (fun _ => Ok (Some "D"%string)) (bm_fit_np (fun a => Ok a))
    (mkObj (mkBM [Fin 0] [Fin 1] None None) (Fin 2) unfitted)
    (DSeries "x" (Dt None [10; 11; 12]%Z) [Fin 1; Fin 2; Fin 4]) None = (o', Ok tt)
  /\ f_dt (o_fit o') = Some (Fin (1 / 365)) /\ ix_max (f_idx (o_fit o')) = Some 12%Z.
Proof. eexists. split; [reflexivity|]. split; reflexivity. Qed.

(* ------------------------------------------------------------------ *)
(** ** C32 Output container *)

Definition pandas (c : cont) : Prop := c = CSeries \/ c = CFrame.
Definition is_np (o : output) : Prop := match o with ONp _ => True | _ => False end.

(** The fitted index, if any, comes from pandas data: on every object ever reached. *)
Lemma used_idx : forall P infer fit_np nll_np (o o' : obj P), o_fit o = unfitted -> used infer fit_np nll_np o o' ->
  ix_has (f_idx (o_fit o')) = true -> pandas (f_cont (o_fit o')).
Proof.
  assert (Step : forall infer st x dt, (ix_has (f_idx st) = true -> pandas (f_cont st)) ->
     ix_has (f_idx (fst (preprocess_fit infer st x dt))) = true -> pandas (f_cont (fst (preprocess_fit infer st x dt)))).
  { intros infer st x dt IH H. rewrite preprocess_fit_cont. rewrite preprocess_fit_idx in H. unfold index_info in H.
    unfold pandas. destruct x; cbn in *; auto; discriminate. }
  intros P infer fit_np nll_np o o' Ho. induction 1 as [|o' x dt _ IH|o' S x dt _ IH HS].
  - rewrite Ho. discriminate.
  - specialize (Step infer (o_fit o') x dt IH). unfold fit. destruct (preprocess_fit infer (o_fit o') x dt) as [st [[v d]|e]]; [|exact Step].
    destruct (fit_np (o_par o') v d). exact Step.
  - rewrite (scoring_inv _ _ _ _ _ _ _ HS). cbn [o_fit]. apply Step. exact IH.
Qed.

Lemma preprocess_labels : forall st default x0 dt ls lf x d ls' lf', preprocess_path st default x0 dt ls lf = Ok (x, d, ls', lf') ->
  (ix_has (f_idx st) || is_some ls' || is_some lf' = ix_has (f_idx st) || is_some ls || is_some lf)%bool.
Proof.
  intros st default x0 dt ls lf x d ls' lf' H. unfold preprocess_path in H.
  apply bind_ok in H as ([p1 p2] & Hp & H). apply bind_ok in H as (d' & _ & H). destruct (ngtb d' (Fin 0)); [|discriminate].
  cbn [fst snd] in H. injection H as _ _ <- <-.
  assert (Hp2 : p2 = ls \/ exists q, p2 = (if is_some ls || is_some lf || ix_has (f_idx st) then oelse ls q else ls)).
  { destruct x0 as [|s|x1].
    - destruct (f_x0 st); injection Hp as _ <-; eauto.
    - destruct (String.eqb s "first"); [destruct (f_x0 st); [|discriminate]; injection Hp as _ <-; eauto|].
      destruct (String.eqb s "last"); [|discriminate]. destruct (f_x0 st); [|discriminate]. destruct (f_xn st); [|discriminate].
      injection Hp as _ <-; eauto.
    - apply bind_ok in Hp as (r & _ & Hp). injection Hp as _ <-. auto. }
  destruct (ix_has (f_idx st)); [reflexivity|].
  destruct Hp2 as [->|[q ->]]; destruct ls, lf; cbn; auto. destruct q; auto.
Qed.

(** Arrays produced by the samplers: one row per step plus one, a whole number (not zero) of columns per path. *)
Definition sampler_shape (sampler : list num -> num -> nat -> nat -> res arr2) : Prop :=
  forall x d n p a, sampler x d n p = Ok a -> nrow a = S n /\ exists V, (0 < V)%nat /\ ncol a = (V * p)%nat.
Lemma sampler_shapes : forall m m' z, sampler_shape (bm_path_np m z) /\ sampler_shape (gbm_path_np m z) /\ sampler_shape (ou_path_np m' z).
Proof.
  intros m m' z. repeat split; intros.
  - apply bm_shape in H. tauto.
  - apply bm_shape in H as (A & B & C). eauto.
  - apply gbm_shape in H. tauto.
  - apply gbm_shape in H as (A & B & C). eauto.
  - apply ou_shape in H as (me & A & B & C & D). tauto.
  - apply ou_shape in H as (me & A & B & C & D). eauto.
Qed.

(** On every object reachable from a new one: the result is a numpy array iff the last data seen by fit/nll/aic/bic was not
    pandas and no label and no column names were given; otherwise it carries a date index with one stamp per row. *)
Theorem C32_container : forall P infer fit_np nll_np (o o' : obj P) default sampler x0 dt steps paths ls lf columns incl out,
  o_fit o = unfitted -> used infer fit_np nll_np o o' -> sampler_shape sampler ->
  path_sample (o_fit o') default sampler x0 dt steps paths ls lf columns incl = Ok out ->
  (is_np out <-> ~ pandas (f_cont (o_fit o')) /\ ls = None /\ lf = None /\ columns = None)
  /\ (~ is_np out -> exists ix, out_index out = Some ix
        /\ dr_periods ix = (out_rows out + dr_skip ix)%nat /\ dr_skip ix = (if incl then 0 else 1)%nat).
Proof.
  intros P infer fit_np nll_np o o' default sampler x0 dt steps paths ls lf columns incl out Ho Hu Hshape H.
  pose proof (used_idx _ _ _ _ _ _ Ho Hu) as Hidx. clear Ho Hu. set (st := o_fit o') in *.
  apply path_sample_inv in H as (x & d & ls' & lf' & a & Hp & Ha & H).
  destruct (Hshape _ _ _ _ _ Ha) as (Hrow & V & HV & Hcol).
  pose proof (format_spec _ V _ _ _ _ _ _ _ HV Hcol H) as (_ & Hrows & _).
  pose proof (preprocess_labels _ _ _ _ _ _ _ _ _ _ Hp) as Hl.
  unfold format_ans in H. set (ni := (ix_has (f_idx st) || is_some ls' || is_some lf')%bool) in *.
  apply bind_ok in H as (index & Hi & H).
  assert (Hni : forall ix, index = Some ix -> dr_periods ix = nrow a /\ dr_skip ix = 0%nat).
  { intros ix ->. destruct ni; [|discriminate]. apply bind_ok in Hi as (ix' & Hm & Hi). injection Hi as <-.
    unfold make_date_time_index in Hm. destruct (oelse _ _); [|discriminate]. destruct (oelse _ _); [|discriminate].
    injection Hm as <-. auto. }
  assert (Hnp : (match f_cont st with CSeries | CFrame => true | _ => false end = true) <-> pandas (f_cont st)).
  { unfold pandas. destruct (f_cont st); split; intros E; auto; try discriminate; destruct E; discriminate. }
  destruct (ni || match f_cont st with CSeries | CFrame => true | _ => false end || is_some columns)%bool eqn:En.
  - apply bind_ok in H as (names & _ & H). destruct index as [ix|] eqn:Eidx; [|discriminate].
    destruct (Hni ix eq_refl) as [Hper Hsk].
    assert (Hout : ~ is_np out /\ exists ix', out_index out = Some ix' /\ dr_periods ix' = nrow a /\ dr_skip ix' = (if incl then 0 else 1)%nat).
    { destruct names as [|n1 [|n2 names]]; destruct (f_cont st); destruct incl; try discriminate; injection H as <-; cbn; split; auto; eauto. }
    destruct Hout as (Hn & ix' & E1 & E2 & E3). split.
    + split; [tauto|]. intros (N1 & -> & -> & ->). exfalso. cbn [is_some] in Hl. rewrite Hl in En.
      rewrite <- Hnp in N1. apply N1. destruct (ix_has (f_idx st)); [apply Hnp; auto|].
      destruct (f_cont st); cbn in En; auto; discriminate.
    + intros _. exists ix'. repeat split; auto. rewrite E2, E3, Hrows. destruct incl; lia.
  - apply orb_false_elim in En as [En Ec]. apply orb_false_elim in En as [En Ep].
    assert (Hout : is_np out) by (destruct incl; injection H as <-; exact I). split; [|tauto].
    split; [intros _|auto]. rewrite <- Hnp, Ep. split; [discriminate|].
    rewrite Hl in En. apply orb_false_elim in En as [En E2]. apply orb_false_elim in En as [_ E1].
    destruct ls, lf, columns; try discriminate. auto.
Qed.
Print Assumptions C32_container.

(** Column names without any date index: when the model last saw pandas data without a DatetimeIndex, or column names are
    given, and there is no label, then a call that gets as far as naming the columns raises UnboundLocalError. *)
Theorem C32_names_without_index : forall st default sampler x0 dt steps paths columns incl x d a names,
  ix_has (f_idx st) = false -> pandas (f_cont st) \/ columns <> None ->
  preprocess_path st default x0 dt None None = Ok (x, d, None, None) -> sampler x d steps paths = Ok a ->
  make_columns_names st (ncol a) paths columns = Ok names ->
  path_sample st default sampler x0 dt steps paths None None columns incl = Raise UnboundLocalError.
Proof.
  intros st default sampler x0 dt steps paths columns incl x d a names Hix Hc Hp Ha Hn.
  unfold path_sample. rewrite Hp. cbn [bind]. rewrite Ha. cbn [bind]. unfold format_ans. rewrite Hix. cbn [is_some orb bind].
  assert (E : (match f_cont st with CSeries | CFrame => true | _ => false end || is_some columns)%bool = true).
  { destruct Hc as [[->| ->]|Hc]; auto. destruct columns; [apply orb_true_r|congruence]. }
  rewrite E, Hn. reflexivity.
Qed.
Print Assumptions C32_names_without_index.

(** In particular: naming the columns of a never-fitted model without labels always fails. *)
Theorem C32_columns_argument_fails : forall d vol x0 dt z steps P cols incl,
  (0 < length d)%nat -> perV vol (length d) -> x0 <> [] -> Nat.divide (length x0) (length d * P) -> 0 < dt -> (0 < P)%nat ->
  length cols = length d ->
  bm_path_sample (mkObj (mkBM (fins d) (fins vol) None None) (Fin 2) unfitted) (fnoise z) (X0Data (DNp1 (fins x0))) (Some (Fin dt))
    steps P None None (Some cols) incl = Raise UnboundLocalError.
Proof.
  intros d vol x0 dt z steps P cols incl Hd Hv Hx Hdiv Hdt HP Hc.
  destruct (bm_core d vol None None x0 dt z steps P Hd Hv Hx Hdiv Hdt) as (a & Ha & Hr & Hcol & _).
  unfold bm_path_sample. cbn [o_fit o_par].
  eapply (C32_names_without_index unfitted (Fin 0) _ _ _ steps P (Some cols) incl (fins x0) (Fin dt) a).
  - reflexivity.
  - right. discriminate.
  - unfold preprocess_path. cbn. unfold ngtb, nltb. rewrite (proj2 (rltb_true 0 dt)) by auto. reflexivity.
  - exact Ha.
  - unfold make_columns_names. rewrite Hcol. destruct (Nat.eqb_spec P 0); [lia|].
    rewrite (Nat.div_mul (length d) P) by lia. rewrite (Nat.mul_comm P), Nat.eqb_refl. cbn [negb]. rewrite Hc, Nat.eqb_refl. cbn [bind].
    instantiate (1 := if Nat.eqb P 1 then cols else concat (map (fun i => map (fun c => append c (append "_" (str_nat i))) cols) (seq 0 P))).
    destruct (Nat.eqb P 1); reflexivity.
Qed.
Print Assumptions C32_columns_argument_fails.

(** include_x0 = False drops exactly the first row of what include_x0 = True returns; a Series result raises instead. *)
Theorem C32_include_x0 : forall st default sampler x0 dt steps paths ls lf columns,
  path_sample st default sampler x0 dt steps paths ls lf columns false
  = match path_sample st default sampler x0 dt steps paths ls lf columns true with
    | Ok (ONp a) => Ok (ONp (drop_first a))
    | Ok (OFrame names ix a) => Ok (OFrame names (mkDR (dr_start ix) (dr_freq ix) (dr_periods ix) (dr_name ix) 1) (drop_first a))
    | Ok (OSeries _ _ _) => Raise IndexingError
    | Raise e => Raise e
    end.
Proof.
  intros. unfold path_sample. destruct (preprocess_path _ _ _ _ _ _) as [[[[x d] ls'] lf']|]; [|reflexivity]. cbn [bind].
  destruct (sampler x d steps paths) as [a|]; [|reflexivity]. cbn [bind]. unfold format_ans.
  generalize (if (ix_has (f_idx st) || is_some ls' || is_some lf')%bool
    then d0 <- make_date_time_index st (nrow a) ls' lf' ;; Ok (Some d0) else Ok None).
  intros [index|]; [|reflexivity]. cbn [bind].
  destruct (_ || is_some columns)%bool; [|reflexivity].
  destruct (make_columns_names _ _ _ _) as [names|]; [|reflexivity]. cbn [bind]. destruct index as [ix|]; [|reflexivity].
  destruct names as [|n1 [|n2 names]]; destruct (f_cont st); reflexivity.
Qed.
Print Assumptions C32_include_x0.

Example C32_example : (* three kinds of result occur *)
  (exists a, path_sample unfitted (Fin 0) (fun _ _ n p => Ok (mkArr (S n) p (fun _ _ => Fin 0))) X0None None 2 2 None None None true = Ok (ONp a))
  /\ (exists ix l, path_sample unfitted (Fin 0) (fun _ _ n p => Ok (mkArr (S n) p (fun _ _ => Fin 0))) X0None None 2 1 (Some 5%Z) (Some "D"%string) None true = Ok (OSeries "S" ix l))
  /\ (exists ix a, path_sample unfitted (Fin 0) (fun _ _ n p => Ok (mkArr (S n) p (fun _ _ => Fin 0))) X0None None 2 2 (Some 5%Z) (Some "D"%string) None true = Ok (OFrame ["S_0"; "S_1"]%string ix a)).
Proof.
  unfold path_sample, preprocess_path. cbn. unfold rltb. destruct (Rlt_dec 0 (1 / 252)); [|exfalso; lra]. cbn. eauto 8.
Qed.

(* ------------------------------------------------------------------ *)
(** ** C75 A failed fit leaves the object half changed *)

(** Data whose inferred frequency has no duration and no dt given: fit raises ValueError and keeps the parameters, but the
    start of later simulations is already that of the new data, and if the object was new then dt is missing, so that a
    later path_sample() without dt raises AssertionError instead of using 1/252. *)
Theorem C75_failed_fit_half_changes : forall T infer fit_np (o : obj T) name nm stamps l f,
  infer stamps = Ok (Some f) -> freq_to_duration f = None -> l <> [] ->
  let (o', r) := fit infer fit_np o (DSeries name (Dt nm stamps) l) None in
  r = Raise ValueError /\ o_par o' = o_par o
  /\ (forall default dt ls lf, preprocess_path (o_fit o') default X0None dt ls lf
         = preprocess_path (o_fit o') default (X0Str "first") dt ls lf)
  /\ (forall default d ls, 0 < d -> preprocess_path (o_fit o') default X0None (Some (Fin d)) (Some ls) None
         = Ok ([nth 0 l NaN], Fin d, Some ls, Some f))
  /\ (o_fit o = unfitted -> forall default sampler x0 steps P ls lf columns incl,
        (x0 = X0None \/ x0 = X0Str "first" \/ x0 = X0Str "last") ->
        path_sample (o_fit o') default sampler x0 None steps P ls lf columns incl = Raise AssertionError).
Proof.
  intros T infer fit_np o name nm stamps l f Hi Hf Hl. unfold fit, preprocess_fit, index_info. cbn [get_date_time_index].
  rewrite Hi. cbn [bind ix_freq to_numpy2 nrow col_vec]. destruct (Nat.eqb_spec (length l) 0) as [E|E]; [destruct l; [congruence|discriminate]|].
  rewrite Hf. cbn [o_par o_fit f_cont f_rows f_cols f_idx f_names f_dt f_x0 f_xn]. split; [auto|split; [auto|]]. split; [|split].
  - intros. reflexivity.
  - intros default d ls Hd. unfold preprocess_path. cbn. unfold ngtb, nltb. rewrite (proj2 (rltb_true 0 d)) by auto. reflexivity.
  - intros Ho default sampler x0 steps P ls lf columns incl Hx. rewrite Ho. unfold path_sample, preprocess_path. cbn [f_x0 f_dt unfitted].
    destruct Hx as [->|[->| ->]]; reflexivity.
Qed.
Print Assumptions C75_failed_fit_half_changes.

Example C75_example : freq_to_duration "W-SUN" = None /\ freq_to_duration "QE-DEC" = None /\ freq_to_duration "h" = None.
Proof. repeat split. Qed.

(** fit on several series with a constant one: drift and vol are replaced, the correlation of the earlier parameters is
    kept, and the call raises. *)
Theorem C75_failed_bm_fit_mixes : forall infer chol o x dt o' e,
  fit infer (bm_fit_np chol) o (DNp2 x) (Some dt) = (o', Raise e) -> (0 < nrow x)%nat ->
  (2 <= ncol x)%nat /\ length (bm_drift (o_par o')) = ncol x /\ length (bm_vol (o_par o')) = ncol x
  /\ bm_L (o_par o') = bm_L (o_par o).
Proof.
  intros infer chol o x dt o' e H Hr. unfold fit in H. rewrite preprocess_np2 in H by auto. unfold bm_fit_np, fit_changes in H.
  change (ncol (diff0 x)) with (ncol x) in H.
  destruct (Nat.ltb_spec 1 (ncol x)); [|discriminate].
  destruct (existsb _ _).
  - injection H as <- _. cbn [o_par bm_drift bm_vol bm_L]. rewrite !map_length, seq_length. auto.
  - destruct (chol _); [discriminate|]. injection H as <- _. cbn [o_par bm_drift bm_vol bm_L]. rewrite !map_length, seq_length. auto.
Qed.
Print Assumptions C75_failed_bm_fit_mixes.
