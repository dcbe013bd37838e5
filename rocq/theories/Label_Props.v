(** Paths of a model that was fitted to labelled data (C115). *)
From Coq Require Import Reals Lra String ZArith List Arith Bool Lia.
From Verif Require Import Base Num Sim_Model Sim_Spec Sim_Proofs Sim_Fit_Proofs Sim_Fit_Props Chol_Model Sim_Cor_Spec Sim_Cor_Props Sim_Cor_Nll_Props Sim_Cor_Fit_Props Sim_Use_Props.
Import ListNotations.
Open Scope R_scope.

(** x has the columns [names] and a DatetimeIndex called [nm] with the stamps [stamps] *)
Definition labelled (x : sdata) (names : list string) (nm : option string) (stamps : list Z) : Prop :=
  (exists a, x = DFrame names (Dt nm stamps) a /\ ncol a = length names) \/ (exists name l, x = DSeries name (Dt nm stamps) l /\ names = [name]).
Definition is_series (x : sdata) : Prop := match x with DSeries _ _ _ => True | _ => False end.
Definition series_out (o : output) : Prop := match o with OSeries _ _ _ => True | _ => False end.
Definition smallest (l : list Z) (s : Z) : Prop := In s l /\ forall u, In u l -> (s <= u)%Z.
Definition largest (l : list Z) (s : Z) : Prop := In s l /\ forall u, In u l -> (u <= s)%Z.
(** the argument dt: none, or a positive number *)
Definition dt_ok (dt : option num) : Prop := match dt with None => True | Some d => exists r, d = Fin r /\ 0 < r end.
(** a class with fit and path_sample *)
Definition bm_or_gbm (np : bmpar -> arr2 -> num -> bmpar * res unit) (ps : obj bmpar -> noise -> x0arg -> option num -> nat -> nat -> option Z -> option string -> option (list string) -> bool -> res output) : Prop :=
  (np = bm_fit_np np_cholesky /\ ps = bm_path_sample) \/ (np = gbm_fit_np np_cholesky /\ ps = gbm_path_sample).

Lemma chol_shape : forall a L, np_cholesky a = Ok L -> nrow L = nrow a /\ ncol L = nrow a.
Proof. intros a L H. unfold np_cholesky in H. destruct (Nat.eqb (nrow a) (ncol a)); [|discriminate]. apply bind_ok in H as (l & _ & H). injection H as <-. auto. Qed.
Lemma fitted_shape : forall m dx d p, fit_changes np_cholesky m dx d = (p, Ok tt) -> length (bm_drift p) = ncol dx /\ length (bm_vol p) = ncol dx /\ match bm_L p with Some L => nrow L = ncol dx /\ ncol L = ncol dx | None => True end.
Proof.
  intros m dx d p H. unfold fit_changes in H. cbv zeta in H. destruct (Nat.ltb 1 (ncol dx)).
  - destruct (existsb _ _); [discriminate|]. destruct (np_cholesky (corrcoef dx)) as [L|] eqn:E; [|discriminate]. injection H as <-. cbn [bm_drift bm_vol bm_L]. rewrite !map_length, seq_length. apply chol_shape in E. auto.
  - injection H as <-. cbn [bm_drift bm_vol bm_L]. rewrite !map_length, seq_length. auto.
Qed.
Lemma noise_ok : forall V loc sc L z, length loc = V -> length sc = V -> match L with Some M => nrow M = V /\ ncol M = V | None => True end -> exists dx, fill_noise V loc sc L z = Ok dx.
Proof.
  intros V loc sc L z Hl Hs HL. unfold fill_noise. replace (match L with Some M => negb (Nat.eqb (nrow M) V && Nat.eqb (ncol M) V) | None => false end) with false.
  - unfold bfits. rewrite Hl, Hs, Nat.eqb_refl, orb_true_r. cbn [negb]. eauto.
  - destruct L as [M|]; [|reflexivity]. destruct HL as [-> ->]. rewrite Nat.eqb_refl. reflexivity.
Qed.
Lemma fitted_paths : forall m dx d p z x0 t steps P, fit_changes np_cholesky m dx d = (p, Ok tt) -> (1 <= ncol dx)%nat -> length x0 = ncol dx ->
  (exists a, bm_path_np p z x0 t steps P = Ok a /\ nrow a = S steps /\ ncol a = (ncol dx * P)%nat) /\ (exists a, gbm_path_np p z x0 t steps P = Ok a /\ nrow a = S steps /\ ncol a = (ncol dx * P)%nat).
Proof.
  intros m dx d p z x0 t steps P H HV Hx. destruct (fitted_shape m dx d p H) as (Hd & Hv & HL).
  assert (Sx : forall y, length y = length x0 -> exists r, set_x0 y (ncol dx * P) = Ok r).
  { intros y Hy. destruct y as [|y0 y]; [cbn [length] in Hy; lia|]. unfold set_x0. rewrite Hy, Hx. rewrite (Nat.mul_comm (ncol dx) P), Nat.div_mul by lia. rewrite (Nat.mul_comm (ncol dx) P), Nat.eqb_refl. eauto. }
  split.
  - unfold bm_path_np. rewrite Hd. cbv zeta. destruct (Sx x0 eq_refl) as (r & ->). cbn [bind]. destruct (Nat.eqb_spec (ncol dx) 0); [lia|].
    destruct (noise_ok (ncol dx) (map (fun d0 => nmul d0 t) (bm_drift p)) (scale_dt (bm_vol p) t) (bm_L p) z) as (dy & ->); [now rewrite map_length|unfold scale_dt; now rewrite map_length|exact HL|]. cbn [bind]. eexists. split; [reflexivity|]. cbn [nrow ncol]. auto.
  - unfold gbm_path_np. rewrite Hd. cbv zeta. destruct (Sx (map nlog x0)) as (r & ->); [now rewrite map_length|]. cbn [bind]. destruct (Nat.eqb_spec (ncol dx) 0); [lia|].
    unfold gbm_mean. cbv zeta. rewrite Hd, Hv, Nat.eqb_refl. cbn [orb bind].
    destruct (noise_ok (ncol dx) (map (fun d0 => nmul d0 t) (map (fun j => nsub (bget (bm_drift p) j) (nmul (Fin (1 / 2)) (nsqr (bget (bm_vol p) j)))) (seq 0 (if Nat.eqb (ncol dx) 1 then ncol dx else ncol dx)))) (scale_dt (bm_vol p) t) (bm_L p) z) as (dy & ->);
      [rewrite !map_length, seq_length; destruct (Nat.eqb (ncol dx) 1); reflexivity|unfold scale_dt; now rewrite map_length|exact HL|]. cbn [bind]. eexists. split; [reflexivity|]. cbn [nrow ncol]. auto.
Qed.
Lemma duration_positive : forall f r, freq_to_duration f = Some r -> 0 < r.
Proof.
  intros f r H. unfold freq_to_duration in H. destruct (find _ duration_table) as [q|] eqn:E; [|discriminate]. injection H as <-. apply find_some in E. destruct E as [E _].
  unfold duration_table in E. repeat (destruct E as [<-|E]; [cbn [snd]; lra|]). destruct E.
Qed.
Lemma names_ok : forall st V P names, f_names st = Some names -> length names = V -> (1 <= V)%nat -> (1 <= P)%nat -> exists cols, make_columns_names st (V * P) P None = Ok cols /\ length cols = (V * P)%nat /\ forall p v, (p < P)%nat -> (v < V)%nat -> nth_error cols (p * V + v) = col_name P names p v.
Proof.
  intros st V P names Hn HV H1 HP. assert (E : exists cols, make_columns_names st (V * P) P None = Ok cols).
  { unfold make_columns_names. destruct (Nat.eqb_spec P 0); [lia|]. rewrite Nat.div_mul by lia. rewrite (Nat.mul_comm P V), Nat.eqb_refl. cbn [negb]. rewrite Hn. destruct names as [|c names]; [cbn [length] in HV; lia|]. rewrite HV, Nat.eqb_refl. cbn [bind]. destruct (Nat.eqb P 1); eauto. }
  destruct E as (cols & E). exists cols. split; [exact E|]. destruct (make_columns_spec st V P None cols ltac:(lia) E) as (_ & _ & L & N & _). split; [exact L|]. intros p v Hp Hv. rewrite (N p v Hp Hv). unfold base_names. rewrite Hn. destruct names; [cbn [length] in HV; lia|reflexivity].
Qed.
(** what a successful fit leaves *)
Lemma fitted_state : forall infer np ps (o : obj bmpar) x names nm stamps f dt fitted, bm_or_gbm np ps -> labelled x names nm stamps -> names <> [] -> stamps <> [] -> infer stamps = Ok f -> dt_ok dt -> fit infer np o x dt = (fitted, Ok tt) ->
  exists s s' d rows x1 x2, smallest stamps s /\ largest stamps s' /\ 0 < d /\ o_fit fitted = mkFit (type_of x) (Some rows) (Some (length names)) (mkIx true nm (Some s) (Some s') f) (Some names) (Some (Fin d)) (Some x1) (Some x2) /\ length x1 = length names /\ length x2 = length names /\
    forall z y dt0 ls lf steps P columns incl, forall q, preprocess_path (o_fit fitted) (Fin 0) y dt0 ls lf = Ok q -> preprocess_path (o_fit fitted) (Fin 100) y dt0 ls lf = Ok q -> length (fst (fst (fst q))) = length names ->
      exists a, ps fitted z y dt0 steps P ls lf columns incl = format_ans (o_fit fitted) a (snd (fst q)) (snd q) columns incl P /\ nrow a = S steps /\ ncol a = (length names * P)%nat.
Proof.
  intros infer np ps o x names nm stamps f dt fitted Hk Hl Hn Hs Hi Hdt H. unfold fit in H. destruct (preprocess_fit infer (o_fit o) x dt) as [st [[v d]|e]] eqn:E; [|discriminate].
  destruct (np (o_par o) v d) as [p r] eqn:Enp. injection H as <- ->. destruct (preprocess_fit_ok _ _ _ _ _ _ _ E) as (ix & Hix & Hv & Hrow & Est & Hd & _). cbn [o_fit o_par].
  assert (Ex : get_date_time_index x = Dt nm stamps /\ get_column_names x = Some names /\ ncol v = length names).
  { destruct Hl as [(a & -> & Ha)|(name & l & -> & ->)]; cbn [to_numpy2] in Hv; injection Hv as <-; repeat split; exact Ha. }
  destruct Ex as (Ei & Ec & Nc). unfold index_info in Hix. rewrite Ei, Hi in Hix. cbn [bind] in Hix. injection Hix as <-. cbn [ix_freq] in Hd. rewrite Ec in Est.
  destruct stamps as [|s0 stamps]; [congruence|]. cbn [zmin_opt zmax_opt] in Est.
  assert (Dd : exists r, d = Fin r /\ 0 < r). { destruct dt as [d0|]; [subst d0; exact Hdt|]. destruct f as [f|]; [destruct Hd as (r & Hr & ->); exists r; split; [reflexivity|eapply duration_positive; eauto]|exists (1 / 252); split; [exact Hd|lra]]. }
  destruct Dd as (r & -> & Hr). exists (fold_left Z.min stamps s0), (fold_left Z.max stamps s0), r, (nrow v), (row v 0), (row v (nrow v - 1)).
  assert (Lr : forall i, length (row v i) = length names) by (intros i; unfold row; rewrite map_length, seq_length; exact Nc).
  split; [apply (fold_min_spec stamps s0); reflexivity|]. split; [apply (fold_max_spec stamps s0); reflexivity|]. split; [exact Hr|]. split; [rewrite Est, Nc; reflexivity|]. split; [apply Lr|]. split; [apply Lr|].
  intros z y dt0 ls lf steps P columns incl [[[x0 t] ls'] lf'] Q0 Q1 Lx. cbn [fst snd] in *.
  assert (HV : (1 <= length names)%nat) by (destruct names; [congruence|cbn [length]; lia]).
  destruct Hk as [[-> ->]|[-> ->]].
  - unfold bm_path_sample, path_sample. cbn [o_fit o_par]. rewrite Q0. cbn [bind]. unfold bm_fit_np in Enp. destruct (fitted_paths _ (diff0 v) _ p z x0 t steps P Enp) as [(a & Ea & Na & Ca) _]; [cbn [ncol diff0]; lia|cbn [ncol diff0]; lia|]. rewrite Ea. cbn [bind]. exists a. cbn [ncol diff0] in Ca. rewrite Nc in Ca. auto.
  - unfold gbm_path_sample, path_sample. cbn [o_fit o_par]. rewrite Q1. cbn [bind]. unfold gbm_fit_np in Enp. destruct (fitted_paths _ (logret v) _ p z x0 t steps P Enp) as [_ (a & Ea & Na & Ca)]; [cbn [ncol logret]; lia|cbn [ncol logret]; lia|]. rewrite Ea. cbn [bind]. exists a. cbn [ncol logret] in Ca. rewrite Nc in Ca. auto.
Qed.

(** A BM or GBM fitted to a DataFrame or Series with dates: path_sample returns pandas data with the names of the fitted data (with several paths, name_0, name_1, ...) and dates
    that go on with the frequency of the data, from its first date, or its last date for x0 = "last".  The result is a Series if the data was one and there is one path, else a DataFrame. *)
Theorem C115_paths_look_like_data : forall infer np ps (o : obj bmpar) x names nm stamps f dt fitted z x0 steps P, bm_or_gbm np ps -> labelled x names nm stamps -> names <> [] -> stamps <> [] -> infer stamps = Ok (Some f) -> dt_ok dt ->
  fit infer np o x dt = (fitted, Ok tt) -> (1 <= P)%nat -> x0 = X0None \/ x0 = X0Str "first" \/ x0 = X0Str "last" ->
  exists out s cols, ps fitted z x0 None steps P None None None true = Ok out /\ out_rows out = (steps + 1)%nat /\ out_cols out = (length names * P)%nat /\
    out_index out = Some (mkDR s f (steps + 1) nm 0) /\ (x0 <> X0Str "last" -> smallest stamps s) /\ (x0 = X0Str "last" -> largest stamps s) /\
    out_names out = Some cols /\ length cols = (length names * P)%nat /\ (forall p v, (p < P)%nat -> (v < length names)%nat -> nth_error cols (p * length names + v) = col_name P names p v) /\
    (series_out out <-> is_series x /\ P = 1%nat).
Proof.
  intros infer np ps o x names nm stamps f dt fitted z x0 steps P Hk Hl Hn Hs Hi Hdt H HP Hx0.
  destruct (fitted_state infer np ps o x names nm stamps (Some f) dt fitted Hk Hl Hn Hs Hi Hdt H) as (s & s' & d & rows & x1 & x2 & Hmin & Hmax & Hd & Est & L1 & L2 & Hps).
  assert (HV : (1 <= length names)%nat) by (destruct names; [congruence|cbn [length]; lia]).
  assert (Pos : ngtb (Fin d) (Fin 0) = true) by (unfold ngtb; cbn [nltb]; unfold rltb; destruct (Rlt_dec 0 d); [reflexivity|lra]).
  assert (Pp : exists y u, (forall dflt, preprocess_path (o_fit fitted) dflt x0 None None None = Ok (y, Fin d, Some u, Some f)) /\ length y = length names /\ (x0 <> X0Str "last" -> u = s) /\ (x0 = X0Str "last" -> u = s')).
  { rewrite Est. destruct Hx0 as [->|[->| ->]].
    - exists x1, s. split; [intros dflt; unfold preprocess_path; cbn [f_x0 f_xn f_idx f_dt ix_has ix_min ix_freq is_some orb oelse bind fst snd]; rewrite Pos; reflexivity|]. split; [exact L1|]. split; [auto|discriminate].
    - exists x1, s. split; [intros dflt; unfold preprocess_path; cbn [f_x0 f_xn f_idx f_dt ix_has ix_min ix_freq is_some orb oelse bind fst snd String.eqb Ascii.eqb Bool.eqb]; rewrite Pos; reflexivity|]. split; [exact L1|]. split; [auto|intros Q; discriminate].
    - exists x2, s'. split; [intros dflt; unfold preprocess_path; cbn [f_x0 f_xn f_idx f_dt ix_has ix_max ix_freq is_some orb oelse bind fst snd String.eqb Ascii.eqb Bool.eqb]; rewrite Pos; reflexivity|]. split; [exact L2|]. split; [congruence|auto]. }
  destruct Pp as (y & u & Py & Ly & U1 & U2). destruct (Hps z x0 None None None steps P None true _ (Py (Fin 0)) (Py (Fin 100)) Ly) as (a & Ea & Na & Ca). cbn [fst snd] in Ea.
  destruct (names_ok (o_fit fitted) (length names) P names) as (cols & Ec & Lc & Nc); auto; [rewrite Est; reflexivity|].
  assert (F : exists out, format_ans (o_fit fitted) a (Some u) (Some f) None true P = Ok out /\ out_index out = Some (mkDR u f (S steps) nm 0) /\ out_names out = Some cols /\ (series_out out <-> is_series x /\ P = 1%nat)).
  { unfold format_ans. rewrite Ca, Ec. rewrite Est. cbn [f_idx ix_has orb is_some f_cont]. unfold make_date_time_index. cbn [oelse f_idx ix_name bind]. rewrite Na.
    assert (Sx : is_series x <-> type_of x = CSeries) by (destruct x; cbn; split; intros; auto; try discriminate; contradiction).
    assert (Tx : type_of x = CSeries \/ type_of x = CFrame) by (destruct Hl as [(b & -> & _)|(q & l & -> & _)]; cbn [type_of]; auto).
    assert (V1 : type_of x = CSeries -> length names = 1%nat) by (destruct Hl as [(b & -> & _)|(q & l & -> & ->)]; [discriminate|reflexivity]).
    destruct cols as [|c1 [|c2 cols]].
    - cbn [length] in Lc. nia.
    - assert (P = 1%nat) by (cbn [length] in Lc; nia). subst P. destruct Tx as [T|T]; rewrite T; (eexists; split; [reflexivity|]); cbn [out_index out_names series_out]; (split; [reflexivity|]); (split; [reflexivity|]); rewrite Sx, T; intuition discriminate.
    - assert (NP : type_of x = CSeries -> P <> 1%nat) by (intros T ->; rewrite (V1 T) in Lc; cbn [length] in Lc; lia).
      destruct Tx as [T|T]; (eexists; split; [reflexivity|]); cbn [out_index out_names series_out]; (split; [reflexivity|]); (split; [reflexivity|]); rewrite Sx; intuition congruence. }
  destruct F as (out & Ef & Oi & On & Os). destruct (format_spec (o_fit fitted) (length names) P a (Some u) (Some f) None true out HV Ca Ef) as (O1 & O2 & _ & _).
  exists out, u, cols. rewrite Ea, Ef. split; [reflexivity|]. split; [rewrite O2, Na; lia|]. split; [exact O1|]. split; [rewrite Oi; do 2 f_equal; lia|].
  split; [intros Q; rewrite (U1 Q); exact Hmin|]. split; [intros Q; rewrite (U2 Q); exact Hmax|]. repeat (split; [assumption|]). exact Os.
Qed.
Print Assumptions C115_paths_look_like_data.

(** If pandas finds no frequency in the dates, the fit succeeds (with dt 1/252 unless it is given), but path_sample without label_freq raises AssertionError. *)
Theorem C115_no_frequency : forall infer np ps (o : obj bmpar) x names nm stamps dt fitted z x0 steps P columns incl, bm_or_gbm np ps -> labelled x names nm stamps -> names <> [] -> stamps <> [] -> infer stamps = Ok None -> dt_ok dt ->
  fit infer np o x dt = (fitted, Ok tt) -> x0 = X0None \/ x0 = X0Str "first" \/ x0 = X0Str "last" ->
  forall ls, ps fitted z x0 None steps P ls None columns incl = Raise AssertionError.
Proof.
  intros infer np ps o x names nm stamps dt fitted z x0 steps P columns incl Hk Hl Hn Hs Hi Hdt H Hx0 ls.
  destruct (fitted_state infer np ps o x names nm stamps None dt fitted Hk Hl Hn Hs Hi Hdt H) as (s & s' & d & rows & x1 & x2 & Hmin & Hmax & Hd & Est & L1 & L2 & Hps).
  assert (Pos : ngtb (Fin d) (Fin 0) = true) by (unfold ngtb; cbn [nltb]; unfold rltb; destruct (Rlt_dec 0 d); [reflexivity|lra]).
  assert (Pp : exists y u, (forall dflt, preprocess_path (o_fit fitted) dflt x0 None ls None = Ok (y, Fin d, Some u, None)) /\ length y = length names).
  { rewrite Est. destruct Hx0 as [->|[->| ->]]; unfold preprocess_path; cbn [f_x0 f_xn f_idx f_dt ix_has ix_min ix_max ix_freq is_some orb oelse bind fst snd String.eqb Ascii.eqb Bool.eqb]; rewrite Pos; destruct ls as [u|]; cbn [is_some orb oelse]; eexists; eexists; (split; [intros; reflexivity|assumption]). }
  destruct Pp as (y & u & Py & Ly). destruct (Hps z x0 None ls None steps P columns incl _ (Py (Fin 0)) (Py (Fin 100)) Ly) as (a & Ea & Na & Ca). cbn [fst snd] in Ea. rewrite Ea.
  unfold format_ans. rewrite Est. cbn [f_idx ix_has orb is_some]. unfold make_date_time_index. cbn [oelse f_idx ix_freq bind]. reflexivity.
Qed.
Print Assumptions C115_no_frequency.

(** Two columns and four days: two paths of four steps have the columns A_0, B_0, A_1, B_1 and five days from the first one *)
Definition ex_frame : sdata := DFrame ["A"; "B"]%string (Dt None [20000; 20001; 20002; 20003]%Z) (farr 4 2 (fun t v => match t, v with 0%nat, _ => 0 | 1%nat, 0%nat => 1 | 1%nat, _ => 0 | _, _ => 1 end)).
Example C115_example : forall z (o : obj bmpar), exists fitted out, fit (fun _ => Ok (Some "D"%string)) (bm_fit_np np_cholesky) o ex_frame None = (fitted, Ok tt) /\
  bm_path_sample fitted z X0None None 4 2 None None None true = Ok out /\ out_index out = Some (mkDR 20000 "D" 5 None 0) /\ out_names out = Some ["A_0"; "B_0"; "A_1"; "B_1"]%string.
Proof.
  intros z o. set (x := fun t v : nat => match t, v with 0%nat, _ => 0 | 1%nat, 0%nat => 1 | 1%nat, _ => 0 | _, _ => 1 end).
  assert (F : snd (fit (fun _ => Ok (Some "D"%string)) (bm_fit_np np_cholesky) o ex_frame None) = Ok tt).
  { assert (HI : independent 3 2 (incr x)) by exact (proj1 (proj2 C98_example)).
    destruct (fit_changes_cor (o_par o) (diff0 (farr 4 2 x)) 3 2 (incr x) (1 / 365) eq_refl eq_refl ltac:(lia) ltac:(lia) ltac:(lra)) as (_ & C & _).
    - intros t v Ht Hv. cbn. unfold incr. f_equal. rewrite Nat.add_1_r. reflexivity.
    - assert (HM : forall v, (v < 2)%nat -> moves 3 (incr x) v) by (intros v Hv; exists 0%nat, 1%nat; split; [lia|]; split; [lia|]; unfold incr, x; destruct v as [|[|v]]; [cbn; lra|cbn; lra|lia]). destruct (C HM HI) as (c & E & _).
      unfold fit, preprocess_fit, ex_frame. cbn -[bm_fit_np x]. unfold bm_fit_np. fold x.
      destruct (fit_changes np_cholesky (o_par o) (diff0 (farr 4 2 x)) (Fin (1 / 365))) as [p r]. exact E. }
  destruct (fit (fun _ => Ok (Some "D"%string)) (bm_fit_np np_cholesky) o ex_frame None) as [fitted r] eqn:E. cbn [snd] in F. subst r.
  destruct (C115_paths_look_like_data (fun _ => Ok (Some "D"%string)) (bm_fit_np np_cholesky) bm_path_sample o ex_frame ["A"; "B"]%string None [20000; 20001; 20002; 20003]%Z "D" None fitted z X0None 4 2) as (out & s & cols & E1 & _ & _ & Oi & Hs & _ & On & Lc & Nc & _);
    [left; auto|left; eexists; split; reflexivity|discriminate|discriminate|reflexivity|exact I|exact E|lia|left; reflexivity|].
  exists fitted, out. split; [reflexivity|]. split; [exact E1|].
  assert (s = 20000%Z) as ->. { destruct (Hs ltac:(discriminate)) as [H1 H2]. specialize (H2 20000%Z (or_introl eq_refl)). cbn [In] in H1. lia. }
  split; [exact Oi|]. rewrite On. f_equal. destruct cols as [|c0 [|c1 [|c2 [|c3 [|? ?]]]]]; try discriminate Lc.
  pose proof (Nc 0%nat 0%nat ltac:(lia) ltac:(cbn; lia)) as N0. pose proof (Nc 0%nat 1%nat ltac:(lia) ltac:(cbn; lia)) as N1. pose proof (Nc 1%nat 0%nat ltac:(lia) ltac:(cbn; lia)) as N2. pose proof (Nc 1%nat 1%nat ltac:(lia) ltac:(cbn; lia)) as N3.
  cbn in N0, N1, N2, N3. injection N0 as ->. injection N1 as ->. injection N2 as ->. injection N3 as ->. reflexivity.
Qed.
