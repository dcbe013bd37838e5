(** Lemmas about the simulation models. *)
From Coq Require Import Reals Lra String Decimal DecimalString DecimalNat ZArith List Arith Bool Lia FinFun.
From Verif Require Import Base Num Sim_Model Sim_Spec.
Import ListNotations.
Open Scope R_scope.

(* ------------------------------------------------------------------ *)
(** ** Data arguments *)

Lemma entries_row : forall x l, entries x = Some l -> to_row x = Ok l.
Proof. intros x l H; destruct x; cbn in H |- *; try discriminate; injection H as <-; reflexivity. Qed.
Lemma data_rows_shape : forall x n, data_rows x = Some n -> shape0 x = Ok n.
Proof. intros x n H; destruct x; cbn in H |- *; try discriminate; injection H as <-; reflexivity. Qed.
Lemma first_obs_row : forall x v, to_numpy2 x = Ok v -> (0 < nrow v)%nat -> first_obs x = Some (row v 0) /\ last_obs x = Some (row v (nrow v - 1)).
Proof.
  assert (L : forall l : list num, (0 < length l)%nat -> option_map (fun v => [v]) (nth_error l 0) = Some (row (col_vec l) 0) /\ option_map (fun v => [v]) (nth_error l (length l - 1)) = Some (row (col_vec l) (length l - 1))).
  { intros l Hl. unfold row, col_vec. cbn [ncol seq map at2]. rewrite (nth_error_nth' l NaN) by lia. rewrite (nth_error_nth' l NaN) by lia. auto. }
  assert (M : forall l : list num, map (fun j => nth j l NaN) (seq 0 (length l)) = l).
  { intros l. apply (nth_ext _ _ NaN NaN); [now rewrite map_length, seq_length|]. intros i Hi. rewrite map_length, seq_length in Hi.
    rewrite (nth_indep _ NaN (nth 0 l NaN)) by now rewrite map_length, seq_length. rewrite (map_nth (fun j => nth j l NaN) (seq 0 (length l)) 0%nat i), seq_nth by auto. reflexivity. }
  intros x v H Hr; destruct x; cbn [to_numpy2] in H; try discriminate; injection H as <-; cbn [first_obs last_obs]; try (apply L; exact Hr);
    try (destruct (Nat.eqb_spec (nrow a) 0); [lia|]; split; reflexivity); try (split; f_equal; unfold row, row_vec; cbn [ncol at2]; symmetry; apply M); split; reflexivity.
Qed.
Lemma dates_index : forall x, match get_date_time_index x with NoDt => dates x = None | Dt _ st => dates x = Some st end.
Proof. intros []; cbn; auto; destruct ix; reflexivity. Qed.
Lemma years_table : forall code y, freq_to_duration code = Some y <-> years code y.
Proof.
  intros code y. unfold years, freq_to_duration, duration_table. cbn [find fst snd In]. split.
  - repeat match goal with |- context [String.eqb ?a code] => destruct (String.eqb_spec a code) as [<-|?] end; intros E; try discriminate; injection E as <-; cbn [snd]; tauto.
  - intros H. repeat match type of H with _ \/ _ => destruct H as [H|H] end; destruct H as [H ->]; repeat match type of H with _ \/ _ => destruct H as [H|H] end; try contradiction; subst code; reflexivity.
Qed.

(* ------------------------------------------------------------------ *)
(** ** Broadcasting *)

Lemma bfits_perV : forall (l : list num) V, perV l V -> bfits l V = true.
Proof. intros l V [H|H]; unfold bfits; rewrite H, Nat.eqb_refl; auto. apply orb_true_r. Qed.
Lemma bfits_true : forall l V, bfits l V = true -> perV l V.
Proof. intros l V H. unfold bfits in H. apply orb_true_iff in H as [H|H]; apply Nat.eqb_eq in H; red; auto. Qed.

Lemma length_fins : forall l, length (fins l) = length l.
Proof. intros; apply map_length. Qed.
Lemma pget_full : forall l v, (v < length l)%nat -> pget l v = nth v l 0.
Proof. intros l v H. unfold pget. destruct (Nat.eqb_spec (length l) 1); auto. assert (v = O) by lia. subst v; reflexivity. Qed.

Lemma nth_fins : forall l v, (v < length l)%nat -> nth v (fins l) NaN = Fin (nth v l 0).
Proof. intros l v H. unfold fins. rewrite (nth_indep _ NaN (Fin 0)) by (rewrite map_length; auto). apply (map_nth Fin). Qed.

Lemma bget_fins : forall l V v, perV l V -> (v < V)%nat -> bget (fins l) v = Fin (pget l v).
Proof.
  intros l V v H Hv. unfold bget, pget, fins. rewrite map_length. destruct (Nat.eqb_spec (length l) 1).
  - apply nth_fins. lia.
  - apply nth_fins. destruct H; lia.
Qed.

Lemma bget_map : forall (f : num -> num) l V v, perV l V -> (v < V)%nat -> bget (map f l) v = f (bget l v).
Proof.
  intros f l V v H Hv. unfold bget. rewrite map_length. destruct (Nat.eqb_spec (length l) 1).
  - rewrite (nth_indep _ NaN (f NaN)) by (rewrite map_length; lia). apply map_nth.
  - rewrite (nth_indep _ NaN (f NaN)) by (rewrite map_length; destruct H; lia). apply map_nth.
Qed.

Lemma perV_map : forall A B (f : A -> B) l V, perV l V -> perV (map f l) V.
Proof. intros A B f l V H. unfold perV. rewrite map_length. exact H. Qed.

Lemma nth_map_seq : forall A (f : nat -> A) n j d, (j < n)%nat -> nth j (map f (seq 0 n)) d = f j.
Proof.
  intros A f n j d H. rewrite (nth_indep _ d (f O)) by (rewrite map_length, seq_length; auto).
  rewrite (map_nth f). rewrite seq_nth by auto. reflexivity.
Qed.

Lemma bget_map_seq : forall (f : nat -> num) n V v, (n = 1%nat /\ (forall i, (i < V)%nat -> f i = f O)) \/ n = V -> (v < V)%nat ->
  bget (map f (seq 0 n)) v = f v.
Proof.
  intros f n V v H Hv. unfold bget. rewrite map_length, seq_length.
  destruct (Nat.eqb_spec n 1).
  - subst n. rewrite nth_map_seq by lia. destruct H as [[_ H]|H]; [symmetry; auto|]. subst V. assert (v = O) by lia. subst v. reflexivity.
  - destruct H as [[H _]|H]; [lia|]. subst V. apply nth_map_seq; auto.
Qed.

(** elementwise operation of two one-row arrays of 1 or V entries *)
Definition op2 (f : num -> num -> num) (l l' : list num) : list num :=
  map (fun j => f (bget l j) (bget l' j)) (seq 0 (if Nat.eqb (length l) 1 then length l' else length l)).

Lemma pmap2_row : forall f l l' V, perV l V -> perV l' V -> pmap2 f (Row l) (Row l') = Ok (Row (op2 f l l')).
Proof.
  intros f l l' V H H'. unfold pmap2. fold (op2 f l l').
  replace (Nat.eqb (length l) (length l') || Nat.eqb (length l) 1 || Nat.eqb (length l') 1) with true; auto.
  symmetry. destruct H as [H|H], H' as [H'|H']; rewrite H, H', ?Nat.eqb_refl; simpl; auto with bool.
Qed.
Lemma op2_perV : forall f l l' V, perV l V -> perV l' V -> perV (op2 f l l') V.
Proof.
  intros f l l' V H H'. unfold perV, op2. rewrite map_length, seq_length.
  destruct (Nat.eqb_spec (length l) 1); [exact H'|exact H].
Qed.
Lemma op2_get : forall f l l' V v, perV l V -> perV l' V -> (v < V)%nat -> bget (op2 f l l') v = f (bget l v) (bget l' v).
Proof.
  intros f l l' V v H H' Hv. unfold op2. apply (bget_map_seq (fun j => f (bget l j) (bget l' j)) _ V v); auto.
  destruct (Nat.eqb_spec (length l) 1).
  - destruct H' as [H'|H']; [|auto]. left. split; auto. intros i _. unfold bget. rewrite e, H'. reflexivity.
  - destruct H as [H|H]; [lia|auto].
Qed.

(* ------------------------------------------------------------------ *)
(** ** Layout *)

Lemma pos_div : forall V P t p v, (v < V)%nat -> ((t * (V * P) + (p * V + v)) / V = t * P + p)%nat.
Proof.
  intros V P t p v H. replace (t * (V * P) + (p * V + v))%nat with (v + (t * P + p) * V)%nat by ring.
  rewrite Nat.div_add by lia. rewrite Nat.div_small by auto. lia.
Qed.
Lemma pos_mod : forall V P t p v, (v < V)%nat -> ((t * (V * P) + (p * V + v)) mod V = v)%nat.
Proof.
  intros V P t p v H. replace (t * (V * P) + (p * V + v))%nat with (v + (t * P + p) * V)%nat by ring.
  rewrite Nat.mod_add by lia. apply Nat.mod_small; auto.
Qed.

Lemma col_pos : forall V P c, (c < V * P)%nat -> exists p v, (p < P)%nat /\ (v < V)%nat /\ c = (p * V + v)%nat.
Proof.
  intros V P c H. assert (V <> 0)%nat by (destruct V; simpl in *; lia).
  exists (c / V)%nat, (c mod V)%nat. split; [|split].
  - apply Nat.div_lt_upper_bound; lia.
  - apply Nat.mod_upper_bound; auto.
  - rewrite Nat.mul_comm. apply Nat.div_mod; auto.
Qed.
Lemma pos_col : forall V P p v, (p < P)%nat -> (v < V)%nat -> (p * V + v < V * P)%nat.
Proof. intros V P p v Hp Hv. nia. Qed.

Lemma filled_S : forall V P row0 dx t p v, (v < V)%nat ->
  filled V (V * P) row0 dx (S t) (p * V + v) = dx (t * P + p)%nat v.
Proof. intros. cbn [filled]. rewrite pos_div, pos_mod by auto. reflexivity. Qed.

Lemma set_x0_ok : forall x0 C, x0 <> [] -> Nat.divide (length x0) C -> set_x0 x0 C = Ok (fun c => nth (c mod length x0) x0 NaN).
Proof.
  intros x0 C H [k Hk]. unfold set_x0. destruct x0 as [|a l]; [congruence|].
  remember (a :: l) as x. assert (length x <> 0)%nat by (subst; simpl; lia).
  replace (length x * (C / length x))%nat with C; [rewrite Nat.eqb_refl; reflexivity|].
  subst C. rewrite Nat.div_mul by auto. lia.
Qed.
Lemma set_x0_inv : forall x0 C f, set_x0 x0 C = Ok f ->
  x0 <> [] /\ Nat.divide (length x0) C /\ forall c, f c = nth (c mod length x0) x0 NaN.
Proof.
  intros x0 C f H. unfold set_x0 in H. destruct x0 as [|a l]; [discriminate|].
  remember (a :: l) as x. destruct (Nat.eqb_spec (length x * (C / length x)) C); [|discriminate].
  injection H as <-. split; [congruence|split; auto]. exists (C / length x)%nat. lia.
Qed.
Lemma set_x0_reject : forall x0 C, x0 <> [] -> ~ Nat.divide (length x0) C -> set_x0 x0 C = Raise ValueError.
Proof.
  intros x0 C H Hd. destruct (set_x0 x0 C) eqn:E; [apply set_x0_inv in E; tauto|].
  unfold set_x0 in E. destruct x0; [congruence|]. destruct (Nat.eqb _ C); [discriminate|]. congruence.
Qed.

(* ------------------------------------------------------------------ *)
(** ** Noise *)

Lemma correlate_fin : forall V P L z t p v, (v < V)%nat ->
  correlate V (option_map (farr V V) L) (fnoise z) (t * P + p) v = Fin (shock V P L z t p v).
Proof.
  intros V P L z t p v Hv. destruct L as [l|]; simpl; [|reflexivity].
  rewrite <- nsum_fin, map_map. f_equal. apply map_ext_in. intros k Hk. unfold draw. f_equal. ring.
Qed.

Lemma fill_noise_ok : forall V loc scale L z, perV loc V -> perV scale V ->
  match L with Some M => nrow M = V /\ ncol M = V | None => True end ->
  fill_noise V loc scale L z = Ok (fun r v => nadd (nmul (correlate V L z r v) (bget scale v)) (bget loc v)).
Proof.
  intros V loc scale L z Hl Hs HL. unfold fill_noise.
  rewrite !bfits_perV by auto. destruct L as [M|]; auto. destruct HL as [-> ->]. rewrite Nat.eqb_refl. reflexivity.
Qed.

(* ------------------------------------------------------------------ *)
(** ** Brownian motion *)

(** the increment of variate v in step t of path p *)
Definition bm_step (d vol : list R) (L : option (nat -> nat -> R)) (dt : R) (z : nat -> R) (P t p v : nat) : R :=
  nth v d 0 * dt + pget vol v * sqrt dt * shock (length d) P L z t p v.
Fixpoint bm_real (d vol : list R) L (x0 : list R) (dt : R) z (P t p v : nat) : R :=
  match t with
  | O => nth ((p * length d + v) mod length x0) x0 0
  | S t' => bm_real d vol L x0 dt z P t' p v + bm_step d vol L dt z P t' p v
  end.

Lemma scale_dt_get : forall vol dt V v, 0 <= dt -> perV vol V -> (v < V)%nat ->
  bget (scale_dt (fins vol) (Fin dt)) v = Fin (pget vol v * sqrt dt).
Proof.
  intros vol dt V v Hdt H Hv. unfold scale_dt. rewrite (bget_map _ _ V) by (auto using perV_map; apply perV_map; auto).
  rewrite (bget_fins _ V) by auto. rewrite nsqrt_fin by auto. reflexivity.
Qed.

Lemma cumsum_ext : forall f c a, (forall t, f t c = a t c) -> forall t, cumsum f t c = cumsum a t c.
Proof. intros f c a H. induction t; cbn [cumsum]; rewrite ?IHt, H; reflexivity. Qed.

Definition L_ok (V : nat) (L : option arr2) (l : option (nat -> nat -> R)) : Prop := L = option_map (farr V V) l.

Lemma L_ok_shape : forall V L l, L_ok V L l -> match L with Some M => nrow M = V /\ ncol M = V | None => True end.
Proof. intros V L [l|] ->; simpl; auto. Qed.

Lemma path_real : forall V P L z loc scale d s row0 (x : nat -> R) t p v,
  (v < V)%nat -> (p < P)%nat ->
  bget loc v = Fin d -> bget scale v = Fin s ->
  row0 (p * V + v)%nat = Fin (x O) ->
  (forall u, x (S u) = x u + (d + s * shock V P L z u p v)) ->
  cumsum (filled V (V * P) row0
     (fun r v => nadd (nmul (correlate V (option_map (farr V V) L) (fnoise z) r v) (bget scale v)) (bget loc v)))
     t (p * V + v) = Fin (x t).
Proof.
  intros V P L z loc scale d s row0 x t p v Hv Hp Hl Hs H0 Hx. induction t.
  - exact H0.
  - cbn [cumsum]. rewrite IHt, filled_S by auto. rewrite correlate_fin by auto. rewrite Hl, Hs, Hx.
    cbn [nmul nadd]. f_equal. ring.
Qed.

Lemma bm_core : forall d vol cor L x0 dt z steps P,
  (0 < length d)%nat -> perV vol (length d) -> x0 <> [] -> Nat.divide (length x0) (length d * P) -> 0 < dt ->
  exists a,
    bm_path_np (mkBM (fins d) (fins vol) cor (option_map (farr (length d) (length d)) L)) (fnoise z) (fins x0) (Fin dt) steps P = Ok a
    /\ nrow a = S steps /\ ncol a = (length d * P)%nat
    /\ forall t p v, (p < P)%nat -> (v < length d)%nat ->
         at2 a t (p * length d + v) = Fin (bm_real d vol L x0 dt z P t p v).
Proof.
  intros d vol cor L x0 dt z steps P HV Hvol Hx0 Hdiv Hdt.
  unfold bm_path_np. cbn [bm_drift bm_vol bm_L]. rewrite !length_fins.
  set (V := length d) in *.
  rewrite set_x0_ok by (rewrite ?length_fins; auto; destruct x0; simpl; congruence). cbn [bind].
  destruct (Nat.eqb_spec V 0); [lia|].
  rewrite fill_noise_ok; [|right; rewrite map_length; apply length_fins
                          |apply perV_map, perV_map; auto|destruct L; simpl; auto].
  cbn [bind]. eexists; split; [reflexivity|]. cbn [nrow ncol at2]. split; [auto|split; [auto|]].
  intros t p v Hp Hv. rewrite length_fins.
  apply (path_real V P L z _ _ (nth v d 0 * dt) (pget vol v * sqrt dt) _ (fun t => bm_real d vol L x0 dt z P t p v)); auto.
  - rewrite (bget_map _ _ V) by (auto; right; apply map_length).
    rewrite (bget_fins _ V) by (auto; right; reflexivity). rewrite pget_full by auto. reflexivity.
  - apply scale_dt_get with (V := V); auto; lra.
  - cbn [bm_real]. apply nth_fins. apply Nat.mod_upper_bound. destruct x0; simpl; [congruence|lia].
Qed.

(* ------------------------------------------------------------------ *)
(** ** Geometric Brownian motion *)

Definition gbm_step (d vol : list R) (L : option (nat -> nat -> R)) (dt : R) (z : nat -> R) (P t p v : nat) : R :=
  (nth v d 0 - pget vol v * pget vol v / 2) * dt + pget vol v * sqrt dt * shock (length d) P L z t p v.
Fixpoint gbm_log (d vol : list R) L (y0 : R) (dt : R) z (P t p v : nat) : R :=
  match t with
  | O => y0
  | S t' => gbm_log d vol L y0 dt z P t' p v + gbm_step d vol L dt z P t' p v
  end.

Lemma path_special : forall V P L z loc scale d s row0 y t p v,
  (v < V)%nat -> (p < P)%nat ->
  bget loc v = Fin d -> bget scale v = Fin s ->
  row0 (p * V + v)%nat = y -> (y = NaN \/ y = NInf) ->
  cumsum (filled V (V * P) row0
     (fun r v => nadd (nmul (correlate V (option_map (farr V V) L) (fnoise z) r v) (bget scale v)) (bget loc v)))
     t (p * V + v) = y.
Proof.
  intros V P L z loc scale d s row0 y t p v Hv Hp Hl Hs H0 Hy. induction t.
  - exact H0.
  - cbn [cumsum]. rewrite IHt, filled_S by auto. rewrite correlate_fin by auto. rewrite Hl, Hs.
    destruct Hy as [-> | ->]; reflexivity.
Qed.

Lemma gbm_core : forall d vol cor L x0 dt z steps P,
  (0 < length d)%nat -> perV vol (length d) -> x0 <> [] -> Nat.divide (length x0) (length d * P) -> 0 < dt ->
  exists a,
    gbm_path_np (mkBM (fins d) (fins vol) cor (option_map (farr (length d) (length d)) L)) (fnoise z) (fins x0) (Fin dt) steps P = Ok a
    /\ nrow a = S steps /\ ncol a = (length d * P)%nat
    /\ forall t p v, (p < P)%nat -> (v < length d)%nat ->
         let e := nth ((p * length d + v) mod length x0) x0 0 in
         (0 < e -> at2 a t (p * length d + v) = Fin (exp (gbm_log d vol L (ln e) dt z P t p v)))
         /\ (e = 0 -> at2 a t (p * length d + v) = Fin 0)
         /\ (e < 0 -> at2 a t (p * length d + v) = NaN).
Proof.
  intros d vol cor L x0 dt z steps P HV Hvol Hx0 Hdiv Hdt.
  unfold gbm_path_np. cbn [bm_drift bm_vol bm_L]. rewrite !length_fins.
  set (V := length d) in *.
  rewrite set_x0_ok by (rewrite ?map_length, ?length_fins; auto; destruct x0; simpl; congruence). cbn [bind].
  destruct (Nat.eqb_spec V 0); [lia|].
  assert (Hd : perV (fins d) V) by (right; apply length_fins).
  assert (Hv' : perV (fins vol) V) by (apply perV_map; auto).
  assert (E : gbm_mean (mkBM (fins d) (fins vol) cor (option_map (farr V V) L))
              = Ok (op2 (fun a b => nsub a (nmul (Fin (1/2)) (nsqr b))) (fins d) (fins vol))).
  { pose proof (pmap2_row (fun a b => nsub a (nmul (Fin (1/2)) (nsqr b))) _ _ V Hd Hv') as E.
    unfold pmap2 in E. unfold gbm_mean. cbn [bm_drift bm_vol].
    destruct (Nat.eqb (length (fins d)) (length (fins vol)) || Nat.eqb (length (fins d)) 1 || Nat.eqb (length (fins vol)) 1);
      [|discriminate]. reflexivity. }
  rewrite E. cbn [bind].
  rewrite fill_noise_ok; [|apply perV_map, op2_perV; auto|apply perV_map, perV_map; auto|destruct L; simpl; auto].
  cbn [bind]. eexists; split; [reflexivity|]. cbn [nrow ncol at2]. split; [auto|split; [auto|]].
  intros t p v Hp Hv. set (e := nth ((p * V + v) mod length x0) x0 0).
  assert (Hm : bget (map (fun d0 => nmul d0 (Fin dt)) (op2 (fun a b => nsub a (nmul (Fin (1/2)) (nsqr b))) (fins d) (fins vol))) v
               = Fin ((nth v d 0 - pget vol v * pget vol v / 2) * dt)).
  { rewrite (bget_map _ _ V) by (auto using op2_perV). rewrite (op2_get _ _ _ V) by auto.
    rewrite !(bget_fins _ V) by (auto; right; reflexivity). rewrite pget_full by auto. cbn. f_equal. field. }
  assert (Hr : nth ((p * V + v) mod length (map nlog (fins x0))) (map nlog (fins x0)) NaN = nlog (Fin e)).
  { rewrite map_length, length_fins. assert ((p * V + v) mod length x0 < length x0)%nat
      by (apply Nat.mod_upper_bound; destruct x0; simpl; [congruence|lia]).
    rewrite (nth_indep _ NaN (nlog NaN)) by (rewrite map_length, length_fins; auto).
    rewrite map_nth. rewrite nth_fins by auto. reflexivity. }
  split; [|split]; intros He.
  - rewrite (path_real V P L z _ _ ((nth v d 0 - pget vol v * pget vol v / 2) * dt) (pget vol v * sqrt dt) _
       (fun t => gbm_log d vol L (ln e) dt z P t p v)); auto.
    + apply scale_dt_get with (V := V); auto; lra.
    + rewrite Hr. apply nlog_fin; auto.
  - rewrite (path_special V P L z _ _ ((nth v d 0 - pget vol v * pget vol v / 2) * dt) (pget vol v * sqrt dt) _ NInf); auto.
    + apply scale_dt_get with (V := V); auto; lra.
    + rewrite Hr, He. cbn. rewrite (proj2 (rltb_false 0 0)) by lra. rewrite (proj2 (reqb_true 0 0)) by lra. reflexivity.
  - rewrite (path_special V P L z _ _ ((nth v d 0 - pget vol v * pget vol v / 2) * dt) (pget vol v * sqrt dt) _ NaN); auto.
    + apply scale_dt_get with (V := V); auto; lra.
    + rewrite Hr. cbn. rewrite (proj2 (rltb_false 0 e)) by lra. rewrite (proj2 (reqb_false e 0)) by lra. reflexivity.
Qed.

(* ------------------------------------------------------------------ *)
(** ** Ornstein-Uhlenbeck *)

(** standard deviation of one step *)
Definition ou_sd (k vol dt : R) : R := sqrt (vol * vol / (2 * k) * (1 - exp (-2 * k * dt))).
Definition ou_step (mean k vol dt x shock : R) : R := mean + (x - mean) * exp (- k * dt) + ou_sd k vol dt * shock.
Fixpoint ou_real (mean mrr vol : list R) L (x0 : list R) (dt : R) z (P t p v : nat) : R :=
  match t with
  | O => nth ((p * length mean + v) mod length x0) x0 0
  | S t' => ou_step (nth v mean 0) (pget mrr v) (pget vol v) dt (ou_real mean mrr vol L x0 dt z P t' p v)
              (shock (length mean) P L z t' p v)
  end.

Lemma ou_var_nonneg : forall k vol dt, k <> 0 -> 0 <= dt -> 0 <= vol * vol / (2 * k) * (1 - exp (-2 * k * dt)).
Proof.
  intros k vol dt Hk Hdt. assert (H2 : 0 <= vol * vol) by apply Rle_0_sqr.
  replace (vol * vol / (2 * k) * (1 - exp (-2 * k * dt))) with (vol * vol / 2 * ((1 - exp (-2 * k * dt)) * / k)) by (field; auto).
  apply Rmult_le_pos; [lra|].
  assert (E0 : exp 0 = 1) by apply exp_0.
  destruct (Rlt_le_dec 0 k) as [Hp|Hn].
  - apply Rmult_le_pos; [|left; apply Rinv_0_lt_compat; auto].
    assert (-2 * k * dt <= 0) by nra. destruct (Req_dec (-2 * k * dt) 0) as [E|E]; [rewrite E; lra|].
    assert (exp (-2 * k * dt) < exp 0) by (apply exp_increasing; lra). lra.
  - assert (k < 0) by lra. assert (0 <= -2 * k * dt) by nra.
    assert (/ k < 0) by (apply Rinv_lt_0_compat; auto).
    destruct (Req_dec (-2 * k * dt) 0) as [E|E]; [rewrite E; nra|].
    assert (exp 0 < exp (-2 * k * dt)) by (apply exp_increasing; lra). nra.
Qed.

(** the three coefficient rows of the sampler *)
Lemma ou_terms : forall mean mrr vol cor L dt V, length mean = V -> perV mrr V -> perV vol V ->
  let m := mkOU (Row mean) (Row mrr) (Row vol) cor L in
  exists mt sc, ou_mean_term m dt = Ok (Row mt) /\ ou_scale m dt = Ok (Row sc) /\ perV mt V /\ perV sc V /\
    forall v, (v < V)%nat ->
      bget mt v = nmul (bget mean v) (nsub (Fin 1) (nexp (nmul (nneg (bget mrr v)) dt))) /\
      bget sc v = nsqrt (nmul (ndiv (nsqr (bget vol v)) (nmul (Fin 2) (bget mrr v)))
                              (nsub (Fin 1) (nexp (nmul (nmul (Fin (-2)) (bget mrr v)) dt)))) /\
      bget (map (fun k => nexp (nmul (nneg k) dt)) mrr) v = nexp (nmul (nneg (bget mrr v)) dt).
Proof.
  intros mean mrr vol cor L dt V Hme Hmr Hvo m.
  unfold ou_mean_term, ou_scale, ou_factor. subst m. cbn [ou_mean ou_mrr ou_vol pmap].
  assert (Hme' : perV mean V) by (right; auto).
  rewrite (pmap2_row nmul mean _ V) by auto using perV_map.
  rewrite (pmap2_row ndiv _ _ V) by auto using perV_map. cbn [bind].
  rewrite (pmap2_row nmul _ _ V) by auto using perV_map, op2_perV. cbn [bind pmap].
  eexists; eexists. split; [reflexivity|]. split; [reflexivity|].
  split; [auto using perV_map, op2_perV|]. split; [auto 6 using perV_map, op2_perV|].
  intros v Hv.
  repeat first [rewrite (op2_get _ _ _ V v) by auto using perV_map, op2_perV
               |rewrite (bget_map _ _ V v) by auto 6 using perV_map, op2_perV ].
  auto.
Qed.

Lemma pmap2_rows : forall f l l',
  (exists r, pmap2 f (Row l) (Row l') = Ok (Row r) /\ length r = (if Nat.eqb (length l) 1 then length l' else length l)
             /\ (length l = length l' \/ length l = 1%nat \/ length l' = 1%nat))
  \/ pmap2 f (Row l) (Row l') = Raise ValueError.
Proof.
  intros f l l'. unfold pmap2. destruct (_ || _) eqn:E; [left|auto].
  eexists. split; [reflexivity|]. rewrite map_length, seq_length. split; [reflexivity|].
  apply orb_true_iff in E as [E|E]; [apply orb_true_iff in E as [E|E]|]; apply Nat.eqb_eq in E; auto.
Qed.
Lemma ou_mean_term_or : forall me mr v c L dt,
  (exists mt, ou_mean_term (mkOU (Row me) (Row mr) (Row v) c L) dt = Ok (Row mt)
     /\ length mt = (if Nat.eqb (length me) 1 then length mr else length me)
     /\ (length me = length mr \/ length me = 1%nat \/ length mr = 1%nat))
  \/ ou_mean_term (mkOU (Row me) (Row mr) (Row v) c L) dt = Raise ValueError.
Proof.
  intros. unfold ou_mean_term, ou_factor. cbn [ou_mean ou_mrr pmap].
  destruct (pmap2_rows nmul me (map (fun f => nsub (Fin 1) f) (map (fun k => nexp (nmul (nneg k) dt)) mr))) as [(r & E & H)|E]; auto.
  left. rewrite !map_length in H. eauto.
Qed.
Lemma ou_scale_or : forall me mr v c L dt,
  (exists sc, ou_scale (mkOU (Row me) (Row mr) (Row v) c L) dt = Ok (Row sc))
  \/ ou_scale (mkOU (Row me) (Row mr) (Row v) c L) dt = Raise ValueError.
Proof.
  intros. unfold ou_scale. cbn [ou_vol ou_mrr pmap].
  destruct (pmap2_rows ndiv (map nsqr v) (map (nmul (Fin 2)) mr)) as [(r & E & _)|E]; rewrite E; cbn [bind]; auto.
  destruct (pmap2_rows nmul r (map (fun k => nsub (Fin 1) (nexp (nmul (nmul (Fin (-2)) k) dt))) mr)) as [(r' & E' & _)|E'];
    rewrite E'; cbn [bind pmap]; eauto.
Qed.

Lemma fill_noise_err : forall V loc scale L z e, fill_noise V loc scale L z = Raise e -> e = ValueError.
Proof.
  intros V loc scale L z e H. unfold fill_noise in H. destruct (match L with Some _ => _ | None => _ end); [congruence|].
  destruct (negb _); [congruence|]. destruct (negb _); congruence.
Qed.
Lemma fill_noise_inv : forall V loc scale L z dx, fill_noise V loc scale L z = Ok dx -> perV loc V /\ perV scale V.
Proof.
  intros V loc scale L z dx H. unfold fill_noise in H. destruct (match L with Some _ => _ | None => _ end); [discriminate|].
  destruct (negb (bfits scale V)) eqn:E; [discriminate|]. destruct (negb (bfits loc V)) eqn:E'; [discriminate|].
  apply negb_false_iff, bfits_true in E, E'. auto.
Qed.

Lemma ou_core : forall mean mrr vol cor L x0 dt z steps P,
  (0 < length mean)%nat -> perV mrr (length mean) -> perV vol (length mean) ->
  (steps = O \/ length mrr = 1%nat \/ length mrr = (length mean * P)%nat) ->
  (forall k, In k mrr -> k <> 0) ->
  x0 <> [] -> Nat.divide (length x0) (length mean * P) -> 0 < dt ->
  exists a,
    ou_path_np (mkOU (Row (fins mean)) (Row (fins mrr)) (Row (fins vol)) cor (option_map (farr (length mean) (length mean)) L))
       (fnoise z) (fins x0) (Fin dt) steps P = Ok a
    /\ nrow a = S steps /\ ncol a = (length mean * P)%nat
    /\ forall t p v, (t <= steps)%nat -> (p < P)%nat -> (v < length mean)%nat ->
         at2 a t (p * length mean + v) = Fin (ou_real mean mrr vol L x0 dt z P t p v).
Proof.
  intros mean mrr vol cor L x0 dt z steps P HV Hmr Hvo Hst Hk Hx0 Hdiv Hdt.
  set (V := length mean) in *.
  destruct (ou_terms (fins mean) (fins mrr) (fins vol) cor (option_map (farr V V) L) (Fin dt) V)
    as (mt & sc & E1 & E2 & Pm & Ps & Hg); [apply length_fins|apply perV_map; auto|apply perV_map; auto|].
  unfold ou_path_np. rewrite E1, E2. cbn [bind ou_mean ou_L ou_mrr pflat]. rewrite !length_fins. fold V.
  rewrite set_x0_ok by (rewrite ?length_fins; auto; destruct x0; simpl; congruence). cbn [bind].
  destruct (Nat.eqb_spec V 0); [lia|].
  rewrite fill_noise_ok; [|auto|auto|destruct L; simpl; auto]. cbn [bind ou_factor pmap pflat].
  unfold ou_factor. cbn [ou_mrr pmap pflat].
  set (fac := map (fun k => nexp (nmul (nneg k) (Fin dt))) (fins mrr)) in *.
  assert (Hf : Nat.eqb steps 0 || bfits fac (V * P) = true).
  { destruct Hst as [->|Hst]; [reflexivity|]. apply orb_true_iff; right. apply bfits_perV.
    unfold perV, fac. rewrite map_length, length_fins. exact Hst. }
  rewrite Hf. eexists; split; [reflexivity|]. cbn [nrow ncol at2]. split; [auto|split; [auto|]].
  intros t p v Ht Hp Hv.
  assert (Hmv : bget (fins mrr) v = Fin (pget mrr v)) by (apply (bget_fins _ V); auto).
  assert (Hkv : pget mrr v <> 0).
  { apply Hk. unfold pget. destruct (Nat.eqb_spec (length mrr) 1); apply nth_In; destruct Hmr; lia. }
  destruct (Hg v Hv) as (G1 & G2 & G3). rewrite Hmv in G1, G2, G3.
  rewrite (bget_fins _ V) in G1 by (auto; right; reflexivity). rewrite pget_full in G1 by auto.
  rewrite (bget_fins _ V) in G2 by auto.
  cbn [nneg nmul nexp nsub nadd nsqr] in G1, G3.
  unfold nsqr in G2. cbn [nmul] in G2. rewrite ndiv_fin in G2 by lra. cbn [nexp nsub nadd nneg nmul] in G2.
  rewrite nsqrt_fin in G2 by (apply (ou_var_nonneg (pget mrr v) (pget vol v) dt); auto; lra).
  induction t.
  - cbn [ou_run filled ou_real]. rewrite ?length_fins. apply nth_fins. apply Nat.mod_upper_bound.
    destruct x0; simpl; [congruence|lia].
  - cbn [ou_run]. rewrite filled_S by auto. rewrite correlate_fin by auto. rewrite IHt by lia.
    rewrite G1, G2. destruct Hst as [->|Hst]; [lia|].
    assert (Hb : bget fac (p * V + v) = Fin (exp (- pget mrr v * dt))).
    { destruct (Nat.eq_dec (length mrr) 1) as [E|E].
      - unfold bget in *. unfold fac in *. rewrite map_length, length_fins, E in *. exact G3.
      - destruct Hst as [Hst|Hst]; [lia|]. assert (P = 1)%nat by (destruct Hmr; [lia|nia]).
        assert (p = 0)%nat by lia. subst p. exact G3. }
    rewrite Hb. cbn [nmul nadd]. cbn [ou_real]. f_equal. unfold ou_step, ou_sd. fold V. unfold Rminus. ring.
Qed.

(* ------------------------------------------------------------------ *)
(** ** Column names *)

Open Scope string_scope.
Definition underscore : Ascii.ascii := Ascii.Ascii true true true true true false true false.

Fixpoint has_char (c : Ascii.ascii) (s : string) : Prop :=
  match s with EmptyString => False | String a t => a = c \/ has_char c t end.

Lemma digits_no_underscore : forall d, ~ has_char underscore (NilEmpty.string_of_uint d).
Proof. induction d; simpl; auto; intros [H|H]; try discriminate; auto. Qed.

Lemma has_char_app : forall c s t, has_char c (s ++ String c t).
Proof. induction s; simpl; auto. Qed.

Lemma str_nat_inj : forall i j, str_nat i = str_nat j -> i = j.
Proof.
  intros i j H. unfold str_nat in H.
  assert (E : Nat.to_uint i = Nat.to_uint j).
  { pose proof (NilEmpty.usu (Nat.to_uint i)) as Hi. pose proof (NilEmpty.usu (Nat.to_uint j)) as Hj. rewrite H in Hi. congruence. }
  rewrite <- (DecimalNat.Unsigned.of_to i), <- (DecimalNat.Unsigned.of_to j), E. reflexivity.
Qed.

Lemma suffix_inj : forall c1 c2 i j,
  c1 ++ "_" ++ str_nat i = c2 ++ "_" ++ str_nat j -> c1 = c2 /\ i = j.
Proof.
  induction c1 as [|a c1 IH]; destruct c2 as [|b c2]; simpl; intros i j H.
  - injection H as H. split; auto. apply str_nat_inj; auto.
  - exfalso. injection H as <- H. apply (digits_no_underscore (Nat.to_uint i)).
    change (has_char underscore (str_nat i)). rewrite H. apply has_char_app.
  - exfalso. injection H as -> H. apply (digits_no_underscore (Nat.to_uint j)).
    change (has_char underscore (str_nat j)). rewrite <- H. apply has_char_app.
  - injection H as -> H. apply IH in H as [-> ->]. auto.
Qed.
Close Scope string_scope.

Lemma NoDup_app_intro : forall A (l l' : list A), NoDup l -> NoDup l' -> (forall x, In x l -> ~ In x l') -> NoDup (l ++ l').
Proof.
  induction l; simpl; intros l' H H' Hd; auto. inversion H; subst. constructor.
  - rewrite in_app_iff. intros [Hi|Hi]; auto. apply (Hd a); auto.
  - apply IHl; auto.
Qed.
Lemma NoDup_concat : forall A B (f : B -> list A) l, NoDup l -> (forall b, In b l -> NoDup (f b)) ->
  (forall b b' x, In x (f b) -> In x (f b') -> b = b') -> NoDup (concat (map f l)).
Proof.
  induction l; simpl; intros H Hf Hd; [constructor|]. inversion H; subst. apply NoDup_app_intro; auto.
  intros x Hx Hi. apply in_concat in Hi as (l' & Hl' & Hx'). apply in_map_iff in Hl' as (b & <- & Hb).
  assert (a = b) by eauto. congruence.
Qed.
Lemma concat_uniform_length : forall A B (f : B -> list A) l n, (forall b, length (f b) = n) -> length (concat (map f l)) = (length l * n)%nat.
Proof. induction l; simpl; intros n H; auto. rewrite app_length, H, (IHl n); auto. Qed.
Lemma concat_uniform_nth : forall A (f : nat -> list A) P n s p v, (forall b, length (f b) = n) -> (p < P)%nat -> (v < n)%nat ->
  nth_error (concat (map f (seq s P))) (p * n + v) = nth_error (f (s + p)%nat) v.
Proof.
  induction P; intros n s p v H Hp Hv; [lia|]. cbn [seq map concat]. destruct p.
  - cbn [Nat.mul Nat.add]. rewrite nth_error_app1 by (rewrite H; lia). f_equal. f_equal. lia.
  - rewrite nth_error_app2 by (rewrite H; nia). rewrite H.
    replace (S p * n + v - n)%nat with (p * n + v)%nat by lia. rewrite IHP by (auto; lia). f_equal. f_equal. lia.
Qed.

Lemma default_names_nodup : forall V, NoDup (map (fun i => append "S" (str_nat i)) (seq 0 V)).
Proof.
  intros V. apply FinFun.Injective_map_NoDup; [|apply seq_NoDup].
  intros i j H. simpl in H. injection H as H. apply str_nat_inj; auto.
Qed.

Lemma make_columns_spec : forall st V P columns names, (0 < V)%nat ->
  make_columns_names st (V * P) P columns = Ok names ->
  (0 < P)%nat /\ length (base_names st V columns) = V /\ length names = (V * P)%nat
  /\ (forall p v, (p < P)%nat -> (v < V)%nat -> nth_error names (p * V + v) = col_name P (base_names st V columns) p v)
  /\ (NoDup (base_names st V columns) -> NoDup names).
Proof.
  intros st V P columns names HV H. unfold make_columns_names in H.
  destruct (Nat.eqb_spec P 0) as [|HP]; [discriminate|].
  assert (E : ((V * P) / P = V)%nat) by (apply Nat.div_mul; auto). rewrite E in H.
  rewrite (Nat.mul_comm P V), Nat.eqb_refl in H. cbn [negb] in H.
  apply bind_ok in H as (base & Hb & H).
  assert (B : base = base_names st V columns /\ length base = V).
  { unfold base_names. destruct columns as [c|].
    - destruct (Nat.eqb_spec (length c) V); [|discriminate]. injection Hb as <-; auto.
    - destruct (f_names st) as [[|s l]|].
      + injection Hb as <-. split; auto. destruct (Nat.ltb_spec 1 V); [rewrite map_length, seq_length; auto|simpl; lia].
      + destruct (Nat.eqb_spec (length (s :: l)) V); [|discriminate]. injection Hb as <-; auto.
      + injection Hb as <-. split; auto. destruct (Nat.ltb_spec 1 V); [rewrite map_length, seq_length; auto|simpl; lia]. }
  destruct B as [-> HB]. set (base := base_names st V columns) in *.
  split; [lia|]. split; [auto|]. unfold col_name.
  destruct (Nat.eqb_spec P 1) as [->|H1].
  - injection H as <-. split; [lia|]. split; [|auto]. intros p v Hp Hv. replace (p * V + v)%nat with v by nia. reflexivity.
  - injection H as <-. split; [|split].
    + rewrite (concat_uniform_length _ _ _ _ V) by (intros; rewrite map_length; auto). rewrite seq_length. lia.
    + intros p v Hp Hv. rewrite concat_uniform_nth by (auto; intros; rewrite map_length; auto).
      rewrite nth_error_map. reflexivity.
    + intros Hn. apply NoDup_concat; [apply seq_NoDup| |].
      * intros i _. apply FinFun.Injective_map_NoDup; auto. intros a b Hab. apply suffix_inj in Hab. tauto.
      * intros i j x Hi Hj. apply in_map_iff in Hi as (c & <- & _). apply in_map_iff in Hj as (c' & E' & _).
        apply suffix_inj in E'. symmetry; tauto.
Qed.

(* ------------------------------------------------------------------ *)
(** ** Outputs *)

Lemma flatten_one_col : forall a, ncol a = 1%nat -> flatten a = map (fun t => at2 a t 0%nat) (seq 0 (nrow a)).
Proof.
  intros a H. unfold flatten. induction (seq 0 (nrow a)) as [|t l IH]; simpl; auto. rewrite IH.
  unfold row. rewrite H. reflexivity.
Qed.

(** What path_sample does with the simulated array. *)
Lemma format_spec : forall st V P ans ls lf columns incl out, (0 < V)%nat -> ncol ans = (V * P)%nat ->
  format_ans st ans ls lf columns incl P = Ok out ->
  out_cols out = (V * P)%nat
  /\ out_rows out = (if incl then nrow ans else nrow ans - 1)%nat
  /\ (forall t c, (t < out_rows out)%nat -> (c < V * P)%nat -> out_at out t c = at2 ans (if incl then t else S t) c)
  /\ match out_names out with Some names => make_columns_names st (V * P) P columns = Ok names | None => True end.
Proof.
  intros st V P ans ls lf columns incl out HV HC H. unfold format_ans in H.
  apply bind_ok in H as (index & Hix & H). rewrite HC in H.
  set (nc := _ || _ || is_some columns) in H. destruct nc.
  - apply bind_ok in H as (names & Hn & H). pose proof (make_columns_spec _ _ _ _ _ HV Hn) as (HP & _ & Hlen & _ & _).
    destruct index as [ix|]; [|discriminate].
    assert (Hfr : (if incl then Ok (OFrame names ix ans)
       else Ok (OFrame names (mkDR (dr_start ix) (dr_freq ix) (dr_periods ix) (dr_name ix) 1) (drop_first ans))) = Ok out ->
       out_cols out = (V * P)%nat
        /\ out_rows out = (if incl then nrow ans else nrow ans - 1)%nat
        /\ (forall t c, (t < out_rows out)%nat -> (c < V * P)%nat -> out_at out t c = at2 ans (if incl then t else S t) c)
        /\ match out_names out with Some names => make_columns_names st (V * P) P columns = Ok names | None => True end).
    { intros Hf. destruct incl; injection Hf as <-; cbn; auto. }
    destruct names as [|n [|n2 nl]]; [auto| |auto].
    assert (Hse : (if incl then Ok (OSeries n ix (flatten ans)) else Raise IndexingError) = Ok out ->
       out_cols out = (V * P)%nat
        /\ out_rows out = (if incl then nrow ans else nrow ans - 1)%nat
        /\ (forall t c, (t < out_rows out)%nat -> (c < V * P)%nat -> out_at out t c = at2 ans (if incl then t else S t) c)
        /\ match out_names out with Some names => make_columns_names st (V * P) P columns = Ok names | None => True end).
    { intros Hs. destruct incl; [|discriminate]. injection Hs as <-. cbn [out_cols out_rows out_at out_names]. simpl length in Hlen.
      rewrite flatten_one_col by lia. rewrite map_length, seq_length. split; [lia|]. split; [auto|]. split; [|auto].
      intros t c Ht Hc. rewrite nth_map_seq by auto. assert (c = O) by lia. subst c. reflexivity. }
    destruct (f_cont st); auto.
  - destruct incl; injection H as <-; cbn; auto.
Qed.

(* ------------------------------------------------------------------ *)
(** ** path_sample *)

Lemma path_sample_plain : forall def sampler x dt steps P, 0 < dt ->
  path_sample unfitted def sampler (X0Data (DNp1 x)) (Some (Fin dt)) steps P None None None true
  = (a <- sampler x (Fin dt) steps P ;; Ok (ONp a)).
Proof.
  intros def sampler x dt steps P Hdt. unfold path_sample, preprocess_path. cbn.
  unfold ngtb, nltb. rewrite (proj2 (rltb_true 0 dt)) by auto. cbn. reflexivity.
Qed.

Lemma path_sample_inv : forall st def sampler x0 dt steps P ls lf columns incl out,
  path_sample st def sampler x0 dt steps P ls lf columns incl = Ok out ->
  exists x d ls' lf' a, preprocess_path st def x0 dt ls lf = Ok (x, d, ls', lf') /\
    sampler x d steps P = Ok a /\ format_ans st a ls' lf' columns incl P = Ok out.
Proof.
  intros st def sampler x0 dt steps P ls lf columns incl out H. unfold path_sample in H.
  apply bind_ok in H as ([[[x d] ls'] lf'] & Hp & H). apply bind_ok in H as (a & Ha & H). eauto 9.
Qed.

Lemma bm_shape : forall m z x0 dt steps P a, bm_path_np m z x0 dt steps P = Ok a ->
  (0 < length (bm_drift m))%nat /\ nrow a = S steps /\ ncol a = (length (bm_drift m) * P)%nat.
Proof.
  intros m z x0 dt steps P a H. unfold bm_path_np in H. apply bind_ok in H as (r & _ & H).
  destruct (Nat.eqb_spec (length (bm_drift m)) 0); [discriminate|]. apply bind_ok in H as (dx & _ & H).
  injection H as <-. cbn. repeat split; auto; lia.
Qed.
Lemma gbm_shape : forall m z x0 dt steps P a, gbm_path_np m z x0 dt steps P = Ok a ->
  (0 < length (bm_drift m))%nat /\ nrow a = S steps /\ ncol a = (length (bm_drift m) * P)%nat.
Proof.
  intros m z x0 dt steps P a H. unfold gbm_path_np in H. apply bind_ok in H as (r & _ & H).
  destruct (Nat.eqb_spec (length (bm_drift m)) 0); [discriminate|]. apply bind_ok in H as (mu & _ & H).
  apply bind_ok in H as (dx & _ & H). injection H as <-. cbn. repeat split; auto; lia.
Qed.
Lemma ou_shape : forall m z x0 dt steps P a, ou_path_np m z x0 dt steps P = Ok a ->
  exists mean, ou_mean m = Row mean /\ (0 < length mean)%nat /\ nrow a = S steps /\ ncol a = (length mean * P)%nat.
Proof.
  intros m z x0 dt steps P a H. unfold ou_path_np in H. apply bind_ok in H as (mt & _ & H). apply bind_ok in H as (sc & _ & H).
  destruct (ou_mean m) as [|mean]; [discriminate|]. apply bind_ok in H as (r & _ & H).
  destruct (Nat.eqb_spec (length mean) 0); [discriminate|]. apply bind_ok in H as (dx & _ & H).
  destruct (_ || _); [|discriminate]. injection H as <-. exists mean. cbn. repeat split; auto; lia.
Qed.
