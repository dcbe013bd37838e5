(** Properties C18-C23, C28 and C33: simulated paths. *)
From Coq Require Import Reals Lra String ZArith List Arith Bool Lia.
From Verif Require Import Base Num Sim_Model Sim_Spec Sim_Proofs.
Import ListNotations.
Open Scope R_scope.

(* ------------------------------------------------------------------ *)
(** ** C18: shape, layout and names *)

(** Shape and names of a path_sample result of an m-variate model. *)
Definition layout (st : fitinfo) (m steps P : nat) (columns : option (list string)) (incl : bool) (out : output) : Prop :=
  out_rows out = (if incl then steps + 1 else steps)%nat
  /\ out_cols out = (m * P)%nat
  /\ match out_names out with
     | None => True
     | Some names =>
         length names = (m * P)%nat
         /\ (forall p v, (p < P)%nat -> (v < m)%nat -> nth_error names (p * m + v) = col_name P (base_names st m columns) p v)
         /\ (NoDup (base_names st m columns) -> NoDup names)
     end.

Lemma layout_intro : forall st m steps P a ls lf columns incl out, (0 < m)%nat -> nrow a = S steps -> ncol a = (m * P)%nat ->
  format_ans st a ls lf columns incl P = Ok out -> layout st m steps P columns incl out.
Proof.
  intros st m steps P a ls lf columns incl out Hm Hr Hc H.
  destruct (format_spec _ m _ _ _ _ _ _ _ Hm Hc H) as (H1 & H2 & _ & H4).
  split; [rewrite H2, Hr; destruct incl; lia|]. split; [auto|].
  destruct (out_names out) as [names|]; auto.
  destruct (make_columns_spec _ _ _ _ _ Hm H4) as (_ & _ & K1 & K2 & K3). auto.
Qed.

Theorem C18_bm_layout : forall o z x0 dt steps P ls lf columns incl out,
  bm_path_sample o z x0 dt steps P ls lf columns incl = Ok out ->
  layout (o_fit o) (length (bm_drift (o_par o))) steps P columns incl out.
Proof.
  intros o z x0 dt steps P ls lf columns incl out H.
  apply path_sample_inv in H as (x & d & ls' & lf' & a & _ & Ha & H).
  apply bm_shape in Ha as (K1 & K2 & K3). eapply layout_intro; eauto.
Qed.
Print Assumptions C18_bm_layout.

Theorem C18_gbm_layout : forall o z x0 dt steps P ls lf columns incl out,
  gbm_path_sample o z x0 dt steps P ls lf columns incl = Ok out ->
  layout (o_fit o) (length (bm_drift (o_par o))) steps P columns incl out.
Proof.
  intros o z x0 dt steps P ls lf columns incl out H.
  apply path_sample_inv in H as (x & d & ls' & lf' & a & _ & Ha & H).
  apply gbm_shape in Ha as (K1 & K2 & K3). eapply layout_intro; eauto.
Qed.
Print Assumptions C18_gbm_layout.

Theorem C18_ou_layout : forall o z x0 dt steps P ls lf columns incl out,
  ou_path_sample o z x0 dt steps P ls lf columns incl = Ok out ->
  layout (o_fit o) (length (pflat (ou_mean (o_par o)))) steps P columns incl out.
Proof.
  intros o z x0 dt steps P ls lf columns incl out H.
  apply path_sample_inv in H as (x & d & ls' & lf' & a & _ & Ha & H).
  apply ou_shape in Ha as (mean & E & K1 & K2 & K3). rewrite E. cbn [pflat]. eapply layout_intro; eauto.
Qed.
Print Assumptions C18_ou_layout.

(** Default names are distinct, so without names from the user or the data the result always has distinct columns. *)
Theorem C18_default_names_distinct : forall st m, f_names st = None -> NoDup (base_names st m None).
Proof.
  intros st m H. unfold base_names. rewrite H. destruct (Nat.ltb 1 m); [apply default_names_nodup|].
  repeat constructor. simpl; tauto.
Qed.
Print Assumptions C18_default_names_distinct.

(** Two variates, two paths, labelled: four columns named as documented. *)
Example C18_example : forall z,
  exists out,
    bm_path_sample (mkObj (mkBM (fins [1; 2]) (fins [3]) None None) (Fin 2) unfitted) z
      X0None None 5 2 (Some 0%Z) (Some "D"%string) (Some ["a"; "b"]%string) true = Ok out
    /\ out_names out = Some ["a_0"; "b_0"; "a_1"; "b_1"]%string /\ out_rows out = 6%nat.
Proof.
  intros z. unfold bm_path_sample, path_sample, preprocess_path. cbn.
  unfold ngtb, nltb. rewrite (proj2 (rltb_true 0 (1 / 252))) by lra. cbn. eauto.
Qed.

(* ------------------------------------------------------------------ *)
(** ** C19: the first row *)

(** x0 repeated over the columns *)
Definition tiled (x0 : list num) (c : nat) : num := nth (c mod length x0) x0 NaN.

Theorem C19_bm_starts_at_x0 : forall o z x x0 dt steps P ls lf columns out,
  entries x = Some x0 -> bm_path_sample o z (X0Data x) dt steps P ls lf columns true = Ok out ->
  forall c, (c < out_cols out)%nat -> out_at out 0 c = tiled x0 c.
Proof.
  intros o z x x0 dt steps P ls lf columns out Hx H c Hc. apply entries_row in Hx.
  pose proof (C18_bm_layout _ _ _ _ _ _ _ _ _ _ _ H) as (L1 & L2 & _).
  apply path_sample_inv in H as (x' & d & ls' & lf' & a & Hp & Ha & H).
  unfold preprocess_path in Hp. rewrite Hx in Hp. cbn [bind fst] in Hp. apply bind_ok in Hp as (d' & _ & Hp).
  destruct (ngtb d' (Fin 0)); [|discriminate]. injection Hp as <- _ _ _.
  pose proof (bm_shape _ _ _ _ _ _ _ Ha) as (K1 & K2 & K3).
  destruct (format_spec _ _ _ _ _ _ _ _ _ K1 K3 H) as (_ & _ & H3 & _).
  rewrite H3 by lia. unfold bm_path_np in Ha. apply bind_ok in Ha as (r & Hr & Ha).
  destruct (Nat.eqb _ 0); [discriminate|]. apply bind_ok in Ha as (dx & _ & Ha). injection Ha as <-. cbn [at2 cumsum filled].
  apply set_x0_inv in Hr as (_ & _ & Hr). apply Hr.
Qed.
Print Assumptions C19_bm_starts_at_x0.

Theorem C19_ou_starts_at_x0 : forall o z x x0 dt steps P ls lf columns out,
  entries x = Some x0 -> ou_path_sample o z (X0Data x) dt steps P ls lf columns true = Ok out ->
  forall c, (c < out_cols out)%nat -> out_at out 0 c = tiled x0 c.
Proof.
  intros o z x x0 dt steps P ls lf columns out Hx H c Hc. apply entries_row in Hx.
  pose proof (C18_ou_layout _ _ _ _ _ _ _ _ _ _ _ H) as (L1 & L2 & _).
  apply path_sample_inv in H as (x' & d & ls' & lf' & a & Hp & Ha & H).
  unfold preprocess_path in Hp. rewrite Hx in Hp. cbn [bind fst] in Hp. apply bind_ok in Hp as (d' & _ & Hp).
  destruct (ngtb d' (Fin 0)); [|discriminate]. injection Hp as <- _ _ _.
  pose proof (ou_shape _ _ _ _ _ _ _ Ha) as (mean & E & K1 & K2 & K3). rewrite E in L2. cbn [pflat] in L2.
  destruct (format_spec _ _ _ _ _ _ _ _ _ K1 K3 H) as (_ & _ & H3 & _).
  rewrite H3 by lia. unfold ou_path_np in Ha. apply bind_ok in Ha as (mt & _ & Ha). apply bind_ok in Ha as (sc & _ & Ha).
  rewrite E in Ha. apply bind_ok in Ha as (r & Hr & Ha).
  destruct (Nat.eqb _ 0); [discriminate|]. apply bind_ok in Ha as (dx & _ & Ha). destruct (_ || _); [|discriminate].
  injection Ha as <-. cbn [at2 ou_run filled].
  apply set_x0_inv in Hr as (_ & _ & Hr). apply Hr.
Qed.
Print Assumptions C19_ou_starts_at_x0.

Theorem C19_gbm_starts_at_positive_x0 : forall o z x x0 dt steps P ls lf columns out,
  entries x = Some (fins x0) -> (forall e, In e x0 -> 0 < e) ->
  gbm_path_sample o z (X0Data x) dt steps P ls lf columns true = Ok out ->
  forall c, (c < out_cols out)%nat -> out_at out 0 c = tiled (fins x0) c.
Proof.
  intros o z x x0 dt steps P ls lf columns out Hx Hpos H c Hc. apply entries_row in Hx.
  pose proof (C18_gbm_layout _ _ _ _ _ _ _ _ _ _ _ H) as (L1 & L2 & _).
  apply path_sample_inv in H as (x' & d & ls' & lf' & a & Hp & Ha & H).
  unfold preprocess_path in Hp. rewrite Hx in Hp. cbn [bind fst] in Hp. apply bind_ok in Hp as (d' & _ & Hp).
  destruct (ngtb d' (Fin 0)); [|discriminate]. injection Hp as <- _ _ _.
  pose proof (gbm_shape _ _ _ _ _ _ _ Ha) as (K1 & K2 & K3).
  destruct (format_spec _ _ _ _ _ _ _ _ _ K1 K3 H) as (_ & _ & H3 & _).
  rewrite H3 by lia. unfold gbm_path_np in Ha. apply bind_ok in Ha as (r & Hr & Ha).
  destruct (Nat.eqb _ 0); [discriminate|]. apply bind_ok in Ha as (mu & _ & Ha). apply bind_ok in Ha as (dx & _ & Ha).
  injection Ha as <-. cbn [at2 cumsum filled].
  apply set_x0_inv in Hr as (Hne & _ & Hr). rewrite Hr. unfold tiled. rewrite !map_length, !length_fins.
  assert (Hl : (c mod length x0 < length x0)%nat) by (apply Nat.mod_upper_bound; destruct x0; simpl in *; [congruence|lia]).
  rewrite (nth_indep _ NaN (nlog NaN)) by (rewrite map_length, length_fins; auto). rewrite map_nth.
  rewrite nth_fins by auto. assert (0 < nth (c mod length x0) x0 0) by (apply Hpos, nth_In; auto).
  rewrite nlog_fin by auto. cbn [nexp]. rewrite exp_ln by auto. reflexivity.
Qed.
Print Assumptions C19_gbm_starts_at_positive_x0.

(** An x0 whose length does not divide the number of columns is rejected, by all three classes. *)
Theorem C19_x0_length_rejected : forall x x0 dt steps P ls lf columns incl,
  entries x = Some x0 -> x0 <> [] -> 0 < dt ->
  (forall o z, ~ Nat.divide (length x0) (length (bm_drift (o_par o)) * P) ->
     bm_path_sample o z (X0Data x) (Some (Fin dt)) steps P ls lf columns incl = Raise ValueError)
  /\ (forall o z, ~ Nat.divide (length x0) (length (bm_drift (o_par o)) * P) ->
     gbm_path_sample o z (X0Data x) (Some (Fin dt)) steps P ls lf columns incl = Raise ValueError)
  /\ (forall chol mean mrr vol cor o z me, ou_new chol mean mrr vol cor = Ok o -> entries mean = Some me ->
     ~ Nat.divide (length x0) (length me * P) ->
     ou_path_sample o z (X0Data x) (Some (Fin dt)) steps P ls lf columns incl = Raise ValueError).
Proof.
  intros x x0 dt steps P ls lf columns incl Hx Hne Hdt. apply entries_row in Hx.
  assert (Hpre : forall st def, exists ls' lf', preprocess_path st def (X0Data x) (Some (Fin dt)) ls lf = Ok (x0, Fin dt, ls', lf')).
  { intros st def. unfold preprocess_path. rewrite Hx. cbn [bind fst snd]. unfold ngtb, nltb.
    rewrite (proj2 (rltb_true 0 dt)) by auto. eauto. }
  split; [|split].
  - intros o z Hd. unfold bm_path_sample, path_sample. destruct (Hpre (o_fit o) (Fin 0)) as (ls' & lf' & ->). cbn [bind].
    unfold bm_path_np. rewrite set_x0_reject by auto. reflexivity.
  - intros o z Hd. unfold gbm_path_sample, path_sample. destruct (Hpre (o_fit o) (Fin 100)) as (ls' & lf' & ->). cbn [bind].
    unfold gbm_path_np. rewrite set_x0_reject; [reflexivity|destruct x0; simpl; congruence|rewrite map_length; auto].
  - intros chol mean mrr vol cor o z me Ho Hme Hd. apply entries_row in Hme. unfold ou_path_sample, path_sample.
    destruct (Hpre (o_fit o) (Fin 0)) as (ls' & lf' & ->). cbn [bind].
    unfold ou_new in Ho. apply bind_ok in Ho as (m & Hm & Ho). injection Ho as <-. cbn [o_par].
    unfold ou_init in Hm. rewrite Hme in Hm. cbn [bind] in Hm. apply bind_ok in Hm as (mr & _ & Hm).
    apply bind_ok in Hm as (v & _ & Hm).
    assert (E : exists L c, m = mkOU (Row me) (Row mr) (Row v) c L).
    { destruct cor; [apply bind_ok in Hm as (l & _ & Hm)|]; injection Hm as <-; eauto. }
    destruct E as (L & c & ->).
    unfold ou_path_np.
    destruct (ou_mean_term_or me mr v c L (Fin dt)) as [(mt & -> & _)| ->]; [|reflexivity]. cbn [bind].
    destruct (ou_scale_or me mr v c L (Fin dt)) as [(sc & ->)| ->]; [|reflexivity]. cbn [bind ou_mean].
    rewrite set_x0_reject by auto. reflexivity.
Qed.
Print Assumptions C19_x0_length_rejected.

Example C19_example : forall z, (* three starting values cannot fill two columns *)
  bm_path_sample (mkObj (mkBM (fins [1]) (fins [3]) None None) (Fin 2) unfitted) z
    (X0Data (DList (fins [1; 2; 3]))) (Some (Fin 1)) 5 2 None None None true = Raise ValueError.
Proof.
  intros z. apply (C19_x0_length_rejected (DList (fins [1; 2; 3])) (fins [1; 2; 3])); try reflexivity; try discriminate; try lra.
  intros [k Hk]. cbn in Hk. lia.
Qed.

(* ------------------------------------------------------------------ *)
(** ** C20: Brownian increments *)

Theorem C20_bm_increments : forall chol d vol cor L x0 dt z steps P,
  let m := length d in
  (0 < m)%nat -> perV vol m -> chol_of chol m cor L -> x0 <> [] -> Nat.divide (length x0) (m * P) -> 0 < dt ->
  exists o a,
    bm_new chol (DNp1 (fins d)) (DNp1 (fins vol)) cor = Ok o
    /\ bm_path_sample o (fnoise z) (X0Data (DNp1 (fins x0))) (Some (Fin dt)) steps P None None None true = Ok (ONp a)
    /\ nrow a = (steps + 1)%nat /\ ncol a = (m * P)%nat
    /\ forall t p v, (t < steps)%nat -> (p < P)%nat -> (v < m)%nat ->
         exists x y, at2 a t (p * m + v) = Fin x /\ at2 a (t + 1) (p * m + v) = Fin y
           /\ y - x = nth v d 0 * dt + pget vol v * sqrt dt * shock m P L z t p v.
Proof.
  intros chol d vol cor L x0 dt z steps P m Hm Hvol HL Hx0 Hdiv Hdt.
  destruct (bm_core d vol cor L x0 dt z steps P) as (a & E & K1 & K2 & K3); auto.
  assert (Ho : exists k, bm_new chol (DNp1 (fins d)) (DNp1 (fins vol)) cor
     = Ok (mkObj (mkBM (fins d) (fins vol) cor (option_map (farr (length d) (length d)) L)) k unfitted)).
  { unfold bm_new, bm_init. cbn [to_row bind]. destruct cor, L; cbn in HL; try tauto; [rewrite HL|]; cbn [bind option_map]; eauto. }
  destruct Ho as (k & Ho). eexists; exists a. split; [exact Ho|].
  unfold bm_path_sample. cbn [o_fit o_par]. rewrite path_sample_plain by auto. rewrite E. cbn [bind].
  split; [reflexivity|]. split; [lia|]. split; [auto|].
  intros t p v Ht Hp Hv. subst m. rewrite !K3 by auto. rewrite Nat.add_1_r. do 2 eexists. split; [reflexivity|]. split; [reflexivity|].
  cbn [bm_real]. unfold bm_step. ring.
Qed.
Print Assumptions C20_bm_increments.

(** Two correlated variates, three paths. *)
Example C20_example : exists chol cor L,
  perV [1; 2] (length [1; 2]) /\ chol_of chol (length [1; 2]) cor L /\ L <> None /\ Nat.divide (length [5]) (length [1; 2] * 3).
Proof.
  exists (fun c => Ok (farr 2 2 (fun i j => if Nat.eqb i j then 1 else 0))), (Some (farr 2 2 (fun i j => if Nat.eqb i j then 1 else 0))),
    (Some (fun i j => if Nat.eqb i j then 1 else 0)).
  repeat split; try (right; reflexivity); try discriminate. exists 6%nat. reflexivity.
Qed.

(* ------------------------------------------------------------------ *)
(** ** C21: geometric Brownian motion *)

Theorem C21_gbm_paths : forall chol d vol cor L x0 dt z steps P,
  let m := length d in
  (0 < m)%nat -> perV vol m -> chol_of chol m cor L -> x0 <> [] -> Nat.divide (length x0) (m * P) -> 0 < dt ->
  exists o a,
    bm_new chol (DNp1 (fins d)) (DNp1 (fins vol)) cor = Ok o
    /\ gbm_path_sample o (fnoise z) (X0Data (DNp1 (fins x0))) (Some (Fin dt)) steps P None None None true = Ok (ONp a)
    /\ nrow a = (steps + 1)%nat /\ ncol a = (m * P)%nat
    /\ forall t p v, (t <= steps)%nat -> (p < P)%nat -> (v < m)%nat ->
         let start := nth ((p * m + v) mod length x0) x0 0 in
         (0 < start -> exists x, at2 a t (p * m + v) = Fin x /\ 0 < x
            /\ ((t < steps)%nat -> exists y, at2 a (t + 1) (p * m + v) = Fin y
                  /\ ln (y / x) = (nth v d 0 - pget vol v ^ 2 / 2) * dt + pget vol v * sqrt dt * shock m P L z t p v))
         /\ (start = 0 -> at2 a t (p * m + v) = Fin 0)
         /\ (start < 0 -> at2 a t (p * m + v) = NaN).
Proof.
  intros chol d vol cor L x0 dt z steps P m Hm Hvol HL Hx0 Hdiv Hdt.
  destruct (gbm_core d vol cor L x0 dt z steps P) as (a & E & K1 & K2 & K3); auto.
  assert (Ho : exists k, bm_new chol (DNp1 (fins d)) (DNp1 (fins vol)) cor
     = Ok (mkObj (mkBM (fins d) (fins vol) cor (option_map (farr (length d) (length d)) L)) k unfitted)).
  { unfold bm_new, bm_init. cbn [to_row bind]. destruct cor, L; cbn in HL; try tauto; [rewrite HL|]; cbn [bind option_map]; eauto. }
  destruct Ho as (k & Ho). eexists; exists a. split; [exact Ho|].
  unfold gbm_path_sample. cbn [o_fit o_par]. rewrite path_sample_plain by auto. rewrite E. cbn [bind].
  split; [reflexivity|]. split; [lia|]. split; [auto|].
  intros t p v Ht Hp Hv. subst m. set (m := length d) in *. set (start := nth ((p * m + v) mod length x0) x0 0). destruct (K3 t p v Hp Hv) as (G1 & G2 & G3). split; [|split; auto].
  intros Hs. rewrite (G1 Hs). eexists. split; [reflexivity|]. split; [apply exp_pos|]. intros Hlt.
  destruct (K3 (t + 1)%nat p v Hp Hv) as (G1' & _ & _). rewrite (G1' Hs). eexists. split; [reflexivity|].
  rewrite Nat.add_1_r. cbn [gbm_log]. unfold Rdiv at 1. rewrite <- exp_Ropp, <- exp_plus, ln_exp.
  unfold gbm_step. fold start m. field.
Qed.
Print Assumptions C21_gbm_paths.

Example C21_example : let x0 := [100; 0] in let m := length [1; 2] in (* first variate starts at 100, second at 0 *)
  nth ((2 * m + 0) mod length x0) x0 0 = 100 /\ nth ((2 * m + 1) mod length x0) x0 0 = 0 /\ Nat.divide (length x0) (m * 3).
Proof. cbn. repeat split. exists 3%nat. reflexivity. Qed.

(* ------------------------------------------------------------------ *)
(** ** C22: Ornstein-Uhlenbeck *)

Theorem C22_ou_exact_step : forall chol mean mrr vol cor L x0 dt z steps P,
  let m := length mean in
  (0 < m)%nat -> perV mrr m -> perV vol m -> (length mrr = 1%nat \/ P = 1%nat) ->
  (forall k, In k mrr -> 0 < k) ->
  chol_of chol m cor L -> x0 <> [] -> Nat.divide (length x0) (m * P) -> 0 < dt ->
  exists o a,
    ou_new chol (DNp1 (fins mean)) (DNp1 (fins mrr)) (DNp1 (fins vol)) cor = Ok o
    /\ ou_path_sample o (fnoise z) (X0Data (DNp1 (fins x0))) (Some (Fin dt)) steps P None None None true = Ok (ONp a)
    /\ nrow a = (steps + 1)%nat /\ ncol a = (m * P)%nat
    /\ forall p v, (p < P)%nat -> (v < m)%nat ->
         at2 a 0 (p * m + v) = Fin (nth ((p * m + v) mod length x0) x0 0)
         /\ (forall t, (t < steps)%nat ->
            exists x y s, at2 a t (p * m + v) = Fin x /\ at2 a (t + 1) (p * m + v) = Fin y
              /\ y = nth v mean 0 + (x - nth v mean 0) * exp (- (pget mrr v * dt)) + s * shock m P L z t p v
              /\ 0 <= s /\ s ^ 2 = pget vol v ^ 2 * (1 - exp (- (2 * pget mrr v * dt))) / (2 * pget mrr v))
         (* without noise: exponential decay to the mean, hence independence of the step size *)
         /\ ((forall i, z i = 0) -> forall t, (t <= steps)%nat ->
               at2 a t (p * m + v)
               = Fin (nth v mean 0 + (nth ((p * m + v) mod length x0) x0 0 - nth v mean 0) * exp (- (pget mrr v * (INR t * dt))))).
Proof.
  intros chol mean mrr vol cor L x0 dt z steps P m Hm Hmr Hvol Hone Hk HL Hx0 Hdiv Hdt.
  destruct (ou_core mean mrr vol cor L x0 dt z steps P) as (a & E & K1 & K2 & K3); auto.
  { right. destruct Hone as [H|H]; [auto|]. destruct Hmr as [H1|H1]; [auto|right; rewrite H, H1; unfold m; lia]. }
  { intros k Hin. apply Hk in Hin. lra. }
  assert (Ho : exists k, ou_new chol (DNp1 (fins mean)) (DNp1 (fins mrr)) (DNp1 (fins vol)) cor
     = Ok (mkObj (mkOU (Row (fins mean)) (Row (fins mrr)) (Row (fins vol)) cor (option_map (farr (length mean) (length mean)) L)) k unfitted)).
  { unfold ou_new, ou_init. cbn [to_row bind]. destruct cor, L; cbn in HL; try tauto; [rewrite HL|]; cbn [bind option_map]; eauto. }
  destruct Ho as (k & Ho). eexists; exists a. split; [exact Ho|].
  unfold ou_path_sample. cbn [o_fit o_par]. rewrite path_sample_plain by auto. rewrite E. cbn [bind].
  split; [reflexivity|]. split; [lia|]. split; [auto|].
  intros p v Hp Hv. subst m.
  assert (Hkv : 0 < pget mrr v).
  { apply Hk. unfold pget. destruct (Nat.eqb_spec (length mrr) 1); apply nth_In; destruct Hmr; lia. }
  split; [rewrite K3 by (auto; lia); reflexivity|]. split.
  - intros t Ht. rewrite !K3 by (auto; lia). rewrite Nat.add_1_r. cbn [ou_real]. unfold ou_step.
    do 2 eexists. exists (ou_sd (pget mrr v) (pget vol v) dt). split; [reflexivity|]. split; [reflexivity|].
    split; [replace (- (pget mrr v * dt)) with (- pget mrr v * dt) by ring; reflexivity|]. unfold ou_sd. split; [apply sqrt_pos|].
    rewrite <- Rsqr_pow2, Rsqr_sqrt by (apply ou_var_nonneg; lra).
    replace (-2 * pget mrr v * dt) with (- (2 * pget mrr v * dt)) by ring. field. lra.
  - intros Hz t Ht. rewrite K3 by (auto; lia). f_equal.
    assert (Hs : forall u, shock (length mean) P L z u p v = 0).
    { intros u. unfold shock, draw. destruct L; [|apply Hz].
      rewrite (rsum_ext _ _ (fun _ => 0)) by (intros; rewrite Hz; ring). rewrite rsum_const. ring. }
    clear Ht. induction t.
    + cbn [ou_real]. replace (- (pget mrr v * (INR 0 * dt))) with 0 by (simpl INR; ring). rewrite exp_0. ring.
    + cbn [ou_real]. rewrite IHt, Hs. unfold ou_step. rewrite S_INR.
      replace (- (pget mrr v * ((INR t + 1) * dt))) with (- (pget mrr v * (INR t * dt)) + - pget mrr v * dt) by ring.
      rewrite exp_plus. ring.
Qed.
Print Assumptions C22_ou_exact_step.

(** Law of one step of length dt: mean [ou_mean_after] and variance [ou_var_after] given the start, as in
    C22_ou_exact_step.  Two steps of dt have the same mean and variance as one step of 2 dt. *)
Definition ou_mean_after (mean k dt x : R) : R := mean + (x - mean) * exp (- (k * dt)).
Definition ou_var_after (k vol dt : R) : R := vol ^ 2 * (1 - exp (- (2 * k * dt))) / (2 * k).
Theorem C22_ou_two_steps : forall mean k vol dt x, 0 < k ->
  ou_mean_after mean k dt (ou_mean_after mean k dt x) = ou_mean_after mean k (2 * dt) x
  /\ exp (- (k * dt)) ^ 2 * ou_var_after k vol dt + ou_var_after k vol dt = ou_var_after k vol (2 * dt).
Proof.
  intros mean k vol dt x Hk. unfold ou_mean_after, ou_var_after. split.
  - replace (- (k * (2 * dt))) with (- (k * dt) + - (k * dt)) by ring. rewrite exp_plus. ring.
  - replace (- (2 * k * (2 * dt))) with (- (2 * k * dt) + - (2 * k * dt)) by ring. rewrite exp_plus.
    replace (- (2 * k * dt)) with (- (k * dt) + - (k * dt)) by ring. rewrite exp_plus. field. lra.
Qed.
Print Assumptions C22_ou_two_steps.

(** mrr = 0 for a variate: NaN after the first row, whatever the other parameters, the noise and x0. *)
Theorem C22_ou_zero_mrr_is_nan : forall mean mrr vol cor L z x0 dt steps P a,
  ou_path_np (mkOU (Row mean) (Row mrr) (Row vol) cor L) z x0 (Fin dt) steps P = Ok a ->
  perV mrr (length mean) -> perV vol (length mean) ->
  forall t p v, (t < steps)%nat -> (p < P)%nat -> (v < length mean)%nat -> bget mrr v = Fin 0 ->
  at2 a (t + 1) (p * length mean + v) = NaN.
Proof.
  intros mean mrr vol cor L z x0 dt steps P a H Hmr Hvol t p v Ht Hp Hv H0.
  destruct (ou_terms mean mrr vol cor L (Fin dt) (length mean) eq_refl Hmr Hvol) as (mt & sc & E1 & E2 & Pm & Ps & Hg).
  unfold ou_path_np in H. rewrite E1, E2 in H. cbn [bind ou_mean pflat ou_L] in H.
  apply bind_ok in H as (r & _ & H). destruct (Nat.eqb _ 0); [discriminate|]. apply bind_ok in H as (dx & Hdx & H).
  destruct (_ || _); [|discriminate]. injection H as <-. cbn [at2]. rewrite Nat.add_1_r. cbn [ou_run].
  rewrite filled_S by auto. destruct (Hg v Hv) as (_ & G2 & _). rewrite H0 in G2.
  assert (G : bget sc v = NaN).
  { rewrite G2. cbn [nmul nexp nsub nadd nneg]. replace (2 * 0) with 0 by ring. replace (-2 * 0 * dt) with 0 by ring. rewrite exp_0.
    replace (1 + - (1)) with 0 by ring. unfold nsqr. destruct (bget vol v) as [s| | |]; cbn; auto.
    - rewrite (proj2 (reqb_true 0 0)) by lra. unfold sgn_inf at 1. rewrite (proj2 (rltb_false (s * s) 0)) by apply Rle_0_sqr.
      destruct (rltb 0 (s * s)); cbn; auto. unfold sgn_inf. rewrite (proj2 (rltb_false 0 0)) by lra. reflexivity.
    - rewrite (proj2 (rltb_false 0 0)) by lra. cbn. unfold sgn_inf. rewrite (proj2 (rltb_false 0 0)) by lra. reflexivity.
    - rewrite (proj2 (rltb_false 0 0)) by lra. cbn. unfold sgn_inf. rewrite (proj2 (rltb_false 0 0)) by lra. reflexivity. }
  unfold fill_noise in Hdx. destruct (match L with Some _ => _ | None => _ end); [discriminate|].
  destruct (negb _); [discriminate|]. destruct (negb _); [discriminate|]. injection Hdx as <-. rewrite G.
  assert (N : forall y, nmul y NaN = NaN) by (intros [ | | |]; reflexivity). rewrite N. reflexivity.
Qed.
Print Assumptions C22_ou_zero_mrr_is_nan.

Example C22_example : perV [3] (length [1; 2]) /\ perV [4; 5] (length [1; 2]) /\ (length [3] = 1%nat \/ 5%nat = 1%nat)
  /\ (forall k, In k [3] -> 0 < k) /\ Nat.divide (length [7; 8]) (length [1; 2] * 5).
Proof.
  repeat split; try (left; reflexivity); try (right; reflexivity); [|exists 5%nat; reflexivity].
  intros k [<-|[]]. lra.
Qed.
Example C22_example_zero : exists a,
  ou_path_np (mkOU (Row [Fin 1]) (Row [Fin 0]) (Row [Fin 1]) None None) (fun _ => Fin 0) [Fin 0] (Fin 1) 3 1 = Ok a.
Proof. cbn. eauto. Qed.

(* ------------------------------------------------------------------ *)
(** ** C23: same seed, longer simulation *)

(** [b] extends [a] by k rows. *)
Definition extends (a b : output) (k : nat) : Prop :=
  out_cols b = out_cols a /\ out_rows b = (out_rows a + k)%nat
  /\ forall t c, (t < out_rows a)%nat -> (c < out_cols a)%nat -> out_at b t c = out_at a t c.

Lemma extends_intro : forall st V P a b la lb ma mb columns incl oa ob n k, (0 < V)%nat ->
  nrow a = S n -> nrow b = S (n + k) -> ncol a = (V * P)%nat -> ncol b = (V * P)%nat -> at2 b = at2 a ->
  format_ans st a la lb columns incl P = Ok oa -> format_ans st b ma mb columns incl P = Ok ob -> extends oa ob k.
Proof.
  intros st V P a b la lb ma mb columns incl oa ob n k HV Ra Rb Ca Cb Eat Ha Hb.
  destruct (format_spec _ _ _ _ _ _ _ _ _ HV Ca Ha) as (A1 & A2 & A3 & _).
  destruct (format_spec _ _ _ _ _ _ _ _ _ HV Cb Hb) as (B1 & B2 & B3 & _).
  split; [congruence|]. split; [rewrite A2, B2, Ra, Rb; destruct incl; lia|].
  intros t c Ht Hc. rewrite A1 in Hc. rewrite A3 by auto. rewrite B3; [rewrite Eat; reflexivity| |auto].
  rewrite B2, Rb. rewrite A2, Ra in Ht. destruct incl; lia.
Qed.

Theorem C23_bm_prefix : forall o z x0 dt n k P ls lf columns incl out out',
  bm_path_sample o z x0 dt n P ls lf columns incl = Ok out ->
  bm_path_sample o z x0 dt (n + k) P ls lf columns incl = Ok out' -> extends out out' k.
Proof.
  intros o z x0 dt n k P ls lf columns incl out out' H H'.
  apply path_sample_inv in H as (x & d & l1 & l2 & a & Hp & Ha & H).
  apply path_sample_inv in H' as (x' & d' & l1' & l2' & b & Hp' & Hb & H').
  assert (E : (x, d, l1, l2) = (x', d', l1', l2')) by congruence. injection E as <- <- <- <-.
  pose proof (bm_shape _ _ _ _ _ _ _ Ha) as (K1 & K2 & K3). pose proof (bm_shape _ _ _ _ _ _ _ Hb) as (_ & Q2 & Q3).
  eapply (extends_intro _ _ P a b); eauto.
  unfold bm_path_np in Ha, Hb. apply bind_ok in Ha as (r & Hr & Ha). rewrite Hr in Hb. cbn [bind] in Hb.
  destruct (Nat.eqb _ 0); [discriminate|]. apply bind_ok in Ha as (dx & Hdx & Ha). rewrite Hdx in Hb. cbn [bind] in Hb.
  injection Ha as <-. injection Hb as <-. reflexivity.
Qed.
Print Assumptions C23_bm_prefix.

Theorem C23_gbm_prefix : forall o z x0 dt n k P ls lf columns incl out out',
  gbm_path_sample o z x0 dt n P ls lf columns incl = Ok out ->
  gbm_path_sample o z x0 dt (n + k) P ls lf columns incl = Ok out' -> extends out out' k.
Proof.
  intros o z x0 dt n k P ls lf columns incl out out' H H'.
  apply path_sample_inv in H as (x & d & l1 & l2 & a & Hp & Ha & H).
  apply path_sample_inv in H' as (x' & d' & l1' & l2' & b & Hp' & Hb & H').
  assert (E : (x, d, l1, l2) = (x', d', l1', l2')) by congruence. injection E as <- <- <- <-.
  pose proof (gbm_shape _ _ _ _ _ _ _ Ha) as (K1 & K2 & K3). pose proof (gbm_shape _ _ _ _ _ _ _ Hb) as (_ & Q2 & Q3).
  eapply (extends_intro _ _ P a b); eauto.
  unfold gbm_path_np in Ha, Hb. apply bind_ok in Ha as (r & Hr & Ha). rewrite Hr in Hb. cbn [bind] in Hb.
  destruct (Nat.eqb _ 0); [discriminate|]. apply bind_ok in Ha as (mu & Hmu & Ha). rewrite Hmu in Hb. cbn [bind] in Hb.
  apply bind_ok in Ha as (dx & Hdx & Ha). rewrite Hdx in Hb. cbn [bind] in Hb.
  injection Ha as <-. injection Hb as <-. reflexivity.
Qed.
Print Assumptions C23_gbm_prefix.

Theorem C23_ou_prefix : forall o z x0 dt n k P ls lf columns incl out out',
  ou_path_sample o z x0 dt n P ls lf columns incl = Ok out ->
  ou_path_sample o z x0 dt (n + k) P ls lf columns incl = Ok out' -> extends out out' k.
Proof.
  intros o z x0 dt n k P ls lf columns incl out out' H H'.
  apply path_sample_inv in H as (x & d & l1 & l2 & a & Hp & Ha & H).
  apply path_sample_inv in H' as (x' & d' & l1' & l2' & b & Hp' & Hb & H').
  assert (E : (x, d, l1, l2) = (x', d', l1', l2')) by congruence. injection E as <- <- <- <-.
  pose proof (ou_shape _ _ _ _ _ _ _ Ha) as (mean & E & K1 & K2 & K3).
  pose proof (ou_shape _ _ _ _ _ _ _ Hb) as (mean' & E' & _ & Q2 & Q3).
  assert (mean' = mean) by congruence. subst mean'.
  eapply (extends_intro _ _ P a b); eauto.
  unfold ou_path_np in Ha, Hb. apply bind_ok in Ha as (mt & Hmt & Ha). rewrite Hmt in Hb. cbn [bind] in Hb.
  apply bind_ok in Ha as (sc & Hsc & Ha). rewrite Hsc in Hb. cbn [bind] in Hb. rewrite E in Ha, Hb.
  apply bind_ok in Ha as (r & Hr & Ha). rewrite Hr in Hb. cbn [bind] in Hb.
  destruct (Nat.eqb _ 0); [discriminate|]. apply bind_ok in Ha as (dx & Hdx & Ha). rewrite Hdx in Hb. cbn [bind] in Hb.
  destruct (_ || _); [|discriminate]. destruct (_ || _); [|discriminate].
  injection Ha as <-. injection Hb as <-. reflexivity.
Qed.
Print Assumptions C23_ou_prefix.

(** The two hypotheses are met together: a 3-step and a 5-step simulation of two paths. *)
Example C23_example : forall z, exists out out',
  let o := mkObj (mkBM (fins [1]) (fins [3]) None None) (Fin 2) unfitted in
  bm_path_sample o z (X0Data (DScalar (Fin 7))) (Some (Fin 1)) 3 2 None None None true = Ok out
  /\ bm_path_sample o z (X0Data (DScalar (Fin 7))) (Some (Fin 1)) (3 + 2) 2 None None None true = Ok out'.
Proof.
  intros z. unfold bm_path_sample, path_sample, preprocess_path. cbn.
  unfold ngtb, nltb. rewrite (proj2 (rltb_true 0 1)) by lra. cbn. eauto.
Qed.

(* ------------------------------------------------------------------ *)
(** ** C28: several mean reversion rates and several paths *)

Theorem C28_ou_multivariate_paths_rejected : forall chol mean mrr vol cor o z mr x x0 dt steps P ls lf columns incl,
  ou_new chol mean mrr vol cor = Ok o -> entries mrr = Some mr -> (2 <= length mr)%nat ->
  (2 <= P)%nat -> (1 <= steps)%nat -> entries x = Some x0 -> x0 <> [] -> 0 < dt ->
  ou_path_sample o z (X0Data x) (Some (Fin dt)) steps P ls lf columns incl = Raise ValueError.
Proof.
  intros chol mean mrr vol cor o z mr x x0 dt steps P ls lf columns incl Ho Hmr H2 HP Hs Hx Hne Hdt. apply entries_row in Hmr. apply entries_row in Hx.
  unfold ou_path_sample, path_sample, preprocess_path. rewrite Hx. cbn [bind fst snd]. unfold ngtb, nltb.
  rewrite (proj2 (rltb_true 0 dt)) by auto. cbn [bind].
  unfold ou_new in Ho. apply bind_ok in Ho as (m & Hm & Ho). injection Ho as <-. cbn [o_par].
  unfold ou_init in Hm. apply bind_ok in Hm as (me & _ & Hm). rewrite Hmr in Hm. cbn [bind] in Hm.
  apply bind_ok in Hm as (v & _ & Hm).
  assert (E : exists L c, m = mkOU (Row me) (Row mr) (Row v) c L).
  { destruct cor; [apply bind_ok in Hm as (l & _ & Hm)|]; injection Hm as <-; eauto. }
  destruct E as (L & c & ->).
  unfold ou_path_np.
  destruct (ou_mean_term_or me mr v c L (Fin dt)) as [(mt & -> & Hmt & Hcase)| ->]; [|reflexivity]. cbn [bind].
  destruct (ou_scale_or me mr v c L (Fin dt)) as [(sc & ->)| ->]; [|reflexivity]. cbn [bind ou_mean].
  destruct (set_x0 x0 (length me * P)) eqn:Ex.
  2:{ unfold set_x0 in Ex. destruct x0 as [|y l]; [congruence|]. destruct (Nat.eqb (length (y :: l) * _) _) in Ex; [discriminate|]. injection Ex as <-. reflexivity. }
  cbn [bind]. destruct (Nat.eqb (length me) 0) eqn:E0; [reflexivity|].
  match goal with |- context [fill_noise ?V ?lo ?s ?L ?zz] => destruct (fill_noise V lo s L zz) eqn:Ef end.
  2:{ apply fill_noise_err in Ef. subst e. reflexivity. }
  apply fill_noise_inv in Ef as [Hf _]. cbn [pflat] in Hf. unfold perV in Hf. rewrite Hmt in Hf.
  cbn [bind]. unfold ou_factor. cbn [ou_mrr pmap pflat]. unfold bfits. rewrite !map_length.
  destruct (Nat.eqb_spec (length me) 1) as [E1|E1].
  - exfalso. lia.
  - destruct Hcase as [Hc|[Hc|Hc]]; [|lia|lia]. destruct (Nat.eqb_spec steps 0); [lia|].
    destruct (Nat.eqb_spec (length mr) 1); [lia|]. destruct (Nat.eqb_spec (length mr) (length me * P)); [nia|]. reflexivity.
Qed.
Print Assumptions C28_ou_multivariate_paths_rejected.

(** A valid bivariate model: accepted with one path, rejected with two. *)
Example C28_example : exists o, ou_new (fun c => Ok c) (DList (fins [1; 2])) (DList (fins [3; 4])) (DList (fins [5; 6])) None = Ok o
  /\ forall z, ou_path_sample o z (X0Data (DScalar (Fin 0))) (Some (Fin 1)) 3 2 None None None true = Raise ValueError
  /\ exists out, ou_path_sample o z (X0Data (DScalar (Fin 0))) (Some (Fin 1)) 3 1 None None None true = Ok out.
Proof.
  eexists. split; [reflexivity|]. intros z. split.
  - eapply (C28_ou_multivariate_paths_rejected (fun c => Ok c) (DList (fins [1; 2])) (DList (fins [3; 4])) (DList (fins [5; 6])) None);
      try reflexivity; try discriminate; cbn; try lia; lra.
  - unfold ou_path_sample, path_sample, preprocess_path. cbn. unfold ngtb, nltb. rewrite (proj2 (rltb_true 0 1)) by lra. cbn. eauto.
Qed.

(* ------------------------------------------------------------------ *)
(** ** C33: covariance of correlated increments *)

(** sum over all steps and paths *)
Definition sum_tp (steps P : nat) (f : nat -> nat -> R) : R :=
  rsum (map (fun t => rsum (map (fun p => f t p) (seq 0 P))) (seq 0 steps)).
(** value of a finite number *)
Definition val (x : num) : R := match x with Fin r => r | _ => 0 end.

Lemma sum_tp_ext : forall n P f g, (forall t p, (t < n)%nat -> (p < P)%nat -> f t p = g t p) -> sum_tp n P f = sum_tp n P g.
Proof.
  intros n P f g H. unfold sum_tp. apply rsum_ext. intros t Ht. apply rsum_ext. intros p Hp.
  apply in_seq in Ht, Hp. apply H; lia.
Qed.
Lemma sum_tp_scal : forall n P c f, sum_tp n P (fun t p => c * f t p) = c * sum_tp n P f.
Proof. intros. unfold sum_tp. rewrite <- rsum_scal. apply rsum_ext. intros. apply rsum_scal. Qed.
Lemma sum_tp_rsum : forall n P A (f : A -> nat -> nat -> R) l,
  sum_tp n P (fun t p => rsum (map (fun a => f a t p) l)) = rsum (map (fun a => sum_tp n P (f a)) l).
Proof.
  intros. unfold sum_tp. rewrite <- (rsum_swap _ _ (fun t a => rsum (map (fun p => f a t p) (seq 0 P)))). apply rsum_ext.
  intros t _. apply (rsum_swap _ _ (fun p a => f a t p)).
Qed.
Lemma rsum_mult : forall A (f : A -> R) B (g : B -> R) l l',
  rsum (map f l) * rsum (map g l') = rsum (map (fun a => rsum (map (fun b => f a * g b) l')) l).
Proof.
  intros. symmetry. rewrite (rsum_ext _ _ (fun a => rsum (map g l') * f a)) by (intros a _; rewrite (rsum_scal _ g (f a)); ring).
  rewrite (rsum_scal _ f). ring.
Qed.
Lemma rsum_delta : forall n k (f : nat -> R), (k < n)%nat ->
  rsum (map (fun j => if Nat.eqb k j then f j else 0) (seq 0 n)) = f k.
Proof.
  intros n k f Hk. assert (H : forall s m, (s <= k < s + m)%nat -> rsum (map (fun j => if Nat.eqb k j then f j else 0) (seq s m)) = f k).
  { intros s m. revert s. induction m; intros s Hs; [lia|]. cbn [seq map]. change (rsum (?a :: ?l)) with (a + rsum l).
    destruct (Nat.eqb_spec k s).
    - subst s. rewrite (rsum_ext _ _ (fun _ => 0)); [rewrite rsum_const; ring|].
      intros j Hj. apply in_seq in Hj. destruct (Nat.eqb_spec k j); [lia|reflexivity].
    - rewrite IHm by lia. ring. }
  apply H. lia.
Qed.

Theorem C33_increment_covariance : forall chol d vol c l x0 dt z steps P,
  let m := length d in
  (0 < m)%nat -> perV vol m -> chol c = Ok (farr m m l) -> x0 <> [] -> Nat.divide (length x0) (m * P) -> 0 < dt ->
  (* c is the correlation matrix and l its Cholesky factor *)
  (forall i j, (i < m)%nat -> (j < m)%nat -> exists r, at2 c i j = Fin r /\ r = rsum (map (fun k => l i k * l j k) (seq 0 m))) ->
  (* the drawn noise vectors have second moment matrix N * identity *)
  (forall k k', (k < m)%nat -> (k' < m)%nat ->
     sum_tp steps P (fun t p => draw m P z t p k * draw m P z t p k') = if Nat.eqb k k' then INR (steps * P) else 0) ->
  exists o a,
    bm_new chol (DNp1 (fins d)) (DNp1 (fins vol)) (Some c) = Ok o
    /\ bm_path_sample o (fnoise z) (X0Data (DNp1 (fins x0))) (Some (Fin dt)) steps P None None None true = Ok (ONp a)
    /\ forall i j, (i < m)%nat -> (j < m)%nat ->
       let dx v t p := val (at2 a (t + 1) (p * m + v)) - val (at2 a t (p * m + v)) - nth v d 0 * dt in
       sum_tp steps P (fun t p => dx i t p * dx j t p)
       = INR (steps * P) * dt * (pget vol i * val (at2 c i j) * pget vol j).
Proof.
  intros chol d vol c l x0 dt z steps P m Hm Hvol HL Hx0 Hdiv Hdt HC HZ.
  destruct (C20_bm_increments chol d vol (Some c) (Some l) x0 dt z steps P Hm Hvol HL Hx0 Hdiv Hdt) as (o & a & Ho & Ha & _ & _ & K).
  exists o, a. split; [auto|]. split; [auto|]. intros i j Hi Hj dx.
  fold m in K.
  assert (E : forall v t p, (v < m)%nat -> (t < steps)%nat -> (p < P)%nat ->
    dx v t p = pget vol v * sqrt dt * rsum (map (fun k => l v k * draw m P z t p k) (seq 0 m))).
  { intros v t p Hv Ht Hp. unfold dx. destruct (K t p v Ht Hp Hv) as (x & y & E1 & E2 & E3). rewrite E1, E2. cbn [val].
    rewrite E3. cbn [shock]. ring. }
  rewrite (sum_tp_ext _ _ _ (fun t p => (pget vol i * pget vol j * dt) *
     rsum (map (fun k => rsum (map (fun k' => (l i k * l j k') * (draw m P z t p k * draw m P z t p k')) (seq 0 m))) (seq 0 m)))).
  2:{ intros t p Ht Hp. rewrite !E by auto.
      rewrite <- (sqrt_sqrt dt) at 3 by lra.
      rewrite (rsum_ext _ (fun k => rsum (map (fun k' => l i k * l j k' * (draw m P z t p k * draw m P z t p k')) (seq 0 m)))
                 (fun k => rsum (map (fun k' => (l i k * draw m P z t p k) * (l j k' * draw m P z t p k')) (seq 0 m))))
        by (intros; apply rsum_ext; intros; ring).
      rewrite <- rsum_mult. ring. }
  rewrite sum_tp_scal, sum_tp_rsum.
  rewrite (rsum_ext _ _ (fun k => INR (steps * P) * (l i k * l j k))).
  2:{ intros k Hk. apply in_seq in Hk. rewrite sum_tp_rsum.
      rewrite (rsum_ext _ _ (fun k' => if Nat.eqb k k' then INR (steps * P) * (l i k * l j k') else 0)).
      - apply (rsum_delta m k (fun k' => INR (steps * P) * (l i k * l j k'))). lia.
      - intros k' Hk'. apply in_seq in Hk'. rewrite sum_tp_scal, HZ by lia. destruct (Nat.eqb k k'); ring. }
  rewrite rsum_scal. destruct (HC i j Hi Hj) as (r & -> & ->). cbn [val]. ring.
Qed.
Print Assumptions C33_increment_covariance.

(** Two variates with correlation 0.6, two steps of one path, noise rows (1, 1) and (1, -1). *)
Example C33_example :
  let l := fun i j => match i, j with 0%nat, 0%nat => 1 | 1%nat, 0%nat => 6/10 | 1%nat, 1%nat => 8/10 | _, _ => 0 end in
  let c := farr 2 2 (fun i j => match i, j with 0%nat, 0%nat => 1 | 1%nat, 1%nat => 1 | _, _ => 6/10 end) in
  let z := fun i => match i with 3%nat => -1 | _ => 1 end in
  (forall i j, (i < 2)%nat -> (j < 2)%nat -> exists r, at2 c i j = Fin r /\ r = rsum (map (fun k => l i k * l j k) (seq 0 2)))
  /\ (forall k k', (k < 2)%nat -> (k' < 2)%nat ->
     sum_tp 2 1 (fun t p => draw 2 1 z t p k * draw 2 1 z t p k') = if Nat.eqb k k' then INR (2 * 1) else 0).
Proof.
  cbv zeta. split.
  - intros i j Hi Hj. destruct i as [|[|i]]; [| |lia]; destruct j as [|[|j]]; try lia; cbn; eexists; (split; [reflexivity|]); lra.
  - intros k k' Hk Hk'. destruct k as [|[|k]]; [| |lia]; destruct k' as [|[|k']]; try lia; cbn; lra.
Qed.
