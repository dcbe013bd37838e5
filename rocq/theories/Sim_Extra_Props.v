(** Properties C34, C35, C76, C77: correlation matrix from its upper triangle, and the QuasiRandom model. *)
From Coq Require Import Reals Lra String ZArith List Arith Bool Lia.
From Verif Require Import Base Num Sim_Model Sim_Spec Sim_Proofs Sim_Fit_Proofs.
Import ListNotations.
Open Scope nat_scope.

(* ------------------------------------------------------------------ *)
(** ** C34 *)

(** strict upper triangle of the leading d x d block, read row by row *)
Definition strict_upper (d : nat) (m : nat -> nat -> num) : list num :=
  concat (map (fun i => map (fun j => m i j) (seq (S i) (d - S i))) (seq 0 d)).

Lemma upper_from : forall d n a, a + n = d ->
  let l := concat (map (fun i => map (fun j => (i, j)) (seq (S i) (d - S i))) (seq a n)) in
  2 * length l = n * (n - 1) /\ NoDup l /\ (forall i j, In (i, j) l -> a <= i < j /\ j < d).
Proof.
  intros d. induction n as [|n IH]; intros a Ha l.
  - subst l. simpl. split; [auto|]. split; [constructor|]. intros i j [].
  - destruct (IH (S a)) as (H1 & H2 & H3); [lia|]. subst l. cbn [seq map concat].
    set (l' := concat (map (fun i => map (fun j => (i, j)) (seq (S i) (d - S i))) (seq (S a) n))) in *.
    split; [|split].
    + rewrite app_length, map_length, seq_length. replace (S n - 1) with n by lia. nia.
    + apply NoDup_app_intro.
      * apply FinFun.Injective_map_NoDup; [intros x y E; congruence|apply seq_NoDup].
      * exact H2.
      * intros [i j] Hi Hj. apply in_map_iff in Hi as (j' & E & _). injection E as <- <-. apply H3 in Hj. lia.
    + intros i j Hi. apply in_app_or in Hi as [Hi|Hi].
      * apply in_map_iff in Hi as (j' & E & Hj). injection E as <- <-. apply in_seq in Hj. lia.
      * apply H3 in Hi. lia.
Qed.

Lemma upper_pairs_spec : forall d,
  2 * length (upper_pairs d) = d * (d - 1) /\ NoDup (upper_pairs d) /\ (forall i j, In (i, j) (upper_pairs d) -> i < j < d).
Proof.
  intros d. destruct (upper_from d d 0 eq_refl) as (A & B & C). split; [exact A|]. split; [exact B|]. intros i j H. apply C in H. lia.
Qed.

Definition hit (i j : nat) (q : nat * nat * num) : bool :=
  let '((a, b), _) := q in (Nat.eqb a i && Nat.eqb b j) || (Nat.eqb a j && Nat.eqb b i).
Lemma find_pair : forall ps vals, NoDup ps -> (forall i j, In (i, j) ps -> i < j) -> length ps = length vals ->
  map (fun p => match find (hit (fst p) (snd p)) (combine ps vals) with Some (_, v) => v | None => Fin 0 end) ps = vals.
Proof.
  induction ps as [|[a b] ps IH]; intros [|v vals] Hd Hlt Hl; simpl in Hl; try discriminate; auto.
  inversion Hd as [|x y Hn Hd' E]; subst. cbn [map combine fst snd]. f_equal.
  - cbn [find hit]. rewrite !Nat.eqb_refl. reflexivity.
  - transitivity (map (fun p => match find (hit (fst p) (snd p)) (combine ps vals) with Some (_, v) => v | None => Fin 0 end) ps).
    + apply map_ext_in. intros [i j] Hin. cbn [find fst snd].
      assert (Hij : i < j) by (apply Hlt; right; auto). assert (Hab : a < b) by (apply Hlt; left; auto).
      assert (Hne : (a, b) <> (i, j)) by (intros E; rewrite E in Hn; auto).
      replace (hit i j (a, b, v)) with false; [reflexivity|]. symmetry. unfold hit.
      destruct (Nat.eqb_spec a i), (Nat.eqb_spec b j), (Nat.eqb_spec a j), (Nat.eqb_spec b i); cbn; auto; subst; try congruence; lia.
    + apply IH; auto. intros i j H. apply Hlt. right. auto.
Qed.

Lemma triangular_ok : forall t, triangular_index ((t + 1) * t / 2) = Ok t /\ 2 * ((t + 1) * t / 2) = (t + 1) * t.
Proof.
  intros t. assert (E : 2 * ((t + 1) * t / 2) = (t + 1) * t).
  { assert (H : Nat.Even ((t + 1) * t)).
    { destruct (Nat.Even_or_Odd t) as [[k ->]|[k ->]]; [exists ((2 * k + 1) * k)|exists ((k + 1) * (2 * k + 1))]; ring. }
    destruct H as [k Hk]. rewrite Hk. rewrite (Nat.mul_comm 2 k), Nat.div_mul by lia. lia. }
  split; [|exact E]. unfold triangular_index. set (T := (t + 1) * t / 2) in *.
  replace (1 + 8 * T) with ((2 * t + 1) * (2 * t + 1)) by nia. rewrite Nat.sqrt_square, Nat.eqb_refl.
  f_equal. replace (2 * t + 1 - 1) with (t * 2) by lia. apply Nat.div_mul. lia.
Qed.

(** d(d-1)/2 values give the symmetric d x d matrix with unit diagonal whose strict upper triangle, row by row, is the list. *)
Theorem C34_cor_from_upper : forall d vals, 1 <= d -> 2 * length vals = d * (d - 1) ->
  exists m, make_cor_from_upper_tri (DList vals) = Ok m
    /\ nrow m = d /\ ncol m = d
    /\ strict_upper d (at2 m) = vals
    /\ (forall i j, at2 m i j = at2 m j i)
    /\ (forall i, at2 m i i = Fin 1).
Proof.
  intros d vals Hd Hl. destruct (triangular_ok (d - 1)) as [E1 E2]. replace (d - 1 + 1) with d in * by lia.
  assert (El : length vals = d * (d - 1) / 2) by (set (q := d * (d - 1) / 2) in *; lia).
  unfold make_cor_from_upper_tri. cbn [bind]. rewrite El, E1. cbn [bind]. replace (d - 1 + 1) with d by lia.
  eexists. split; [reflexivity|]. cbn [nrow ncol at2]. split; [auto|]. split; [auto|].
  destruct (upper_pairs_spec d) as (H1 & H2 & H3). split; [|split].
  - transitivity (map (fun p => cor_entry d vals (fst p) (snd p)) (upper_pairs d)).
    + unfold strict_upper, upper_pairs. rewrite concat_map, map_map. f_equal. apply map_ext. intros i. rewrite map_map. reflexivity.
    + transitivity (map (fun p => match find (hit (fst p) (snd p)) (combine (upper_pairs d) vals) with Some (_, v) => v | None => Fin 0%R end) (upper_pairs d));
        [|apply find_pair; [auto|intros i j Hij; apply H3 in Hij; lia|lia]].
      apply map_ext_in. intros [i j] Hij. apply H3 in Hij. unfold cor_entry. cbn [fst snd]. destruct (Nat.eqb_spec i j); [lia|]. reflexivity.
  - intros i j. unfold cor_entry. rewrite (Nat.eqb_sym i j). destruct (Nat.eqb j i); [reflexivity|].
    f_equal. assert (Ex : forall l, find (fun q : nat * nat * num => let '(a, b, _) := q in (Nat.eqb a i && Nat.eqb b j) || (Nat.eqb a j && Nat.eqb b i)) l
       = find (fun q : nat * nat * num => let '(a, b, _) := q in (Nat.eqb a j && Nat.eqb b i) || (Nat.eqb a i && Nat.eqb b j)) l).
    { induction l as [|[[a b] v] l IH]; [reflexivity|]. cbn [find]. rewrite IH. rewrite (orb_comm (Nat.eqb a i && Nat.eqb b j)). reflexivity. }
    rewrite Ex. reflexivity.
  - intros i. unfold cor_entry. rewrite Nat.eqb_refl. reflexivity.
Qed.
Print Assumptions C34_cor_from_upper.

(** Every other length is rejected. *)
Theorem C34_other_lengths_rejected : forall vals, (forall d, 1 <= d -> 2 * length vals <> d * (d - 1)) ->
  make_cor_from_upper_tri (DList vals) = Raise ValueError.
Proof.
  intros vals H. unfold make_cor_from_upper_tri. cbn [bind]. unfold triangular_index.
  set (T := length vals) in *. set (s := Nat.sqrt (1 + 8 * T)). destruct (Nat.eqb_spec (s * s) (1 + 8 * T)) as [E|E]; [|reflexivity].
  exfalso. destruct (Nat.Even_or_Odd s) as [[k Hk]|[k Hk]]; rewrite Hk in E; [nia|].
  apply (H (k + 1)); [lia|]. replace (k + 1 - 1) with k by lia. nia.
Qed.
Print Assumptions C34_other_lengths_rejected.

Example C34_example : exists m, make_cor_from_upper_tri (DList [Fin 2; Fin 3; Fin 4; Fin 5; Fin 6; Fin 7]%R) = Ok m
  /\ nrow m = 4 /\ at2 m 0 3 = Fin 4%R /\ at2 m 3 0 = Fin 4%R /\ at2 m 1 2 = Fin 5%R /\ at2 m 3 2 = Fin 7%R /\ at2 m 2 2 = Fin 1%R.
Proof. eexists. split; [reflexivity|]. repeat split. Qed.
Example C34_example_bad : make_cor_from_upper_tri (DList [NaN; NaN]) = Raise ValueError.
Proof. reflexivity. Qed.

(* ------------------------------------------------------------------ *)
(** ** C35 QuasiRandom *)
Open Scope R_scope.

(** all entries of the base column except the last: what the indicator function is given *)
Definition column (o : output) (c : nat) : list num := map (fun t => out_at o t c) (seq 0 (out_rows o)).
(** NaN read as 0, infinities as the largest double and its negative *)
Definition cleaned (x : num) : R := match x with Fin a => a | NaN => 0 | PInf => (2 - / 2 ^ 52) * 2 ^ 1023 | NInf => - ((2 - / 2 ^ 52) * 2 ^ 1023) end.
(** the indicator values of a column, cleaned *)
Definition signal (tech : list num -> list num) (base : output) (c : nat) : list R :=
  map cleaned (tech (removelast (column base c))).
(** the signal without its last value: the sample that fixes the scale *)
Definition interior (tech : list num -> list num) (base : output) (c : nat) : list R := removelast (signal tech base c).

Lemma nan_to_num_fins : forall l, map nan_to_num l = fins (map cleaned l).
Proof. intros l. unfold fins. rewrite map_map. apply map_ext. intros []; reflexivity. Qed.

Lemma concat_repeat_nth : forall A (l : list A) P p v d, (p < P)%nat -> (v < length l)%nat ->
  nth (p * length l + v) (concat (repeat l P)) d = nth v l d.
Proof.
  intros A l. induction P as [|P IH]; intros p v d Hp Hv; [lia|]. cbn [repeat concat].
  destruct p as [|p].
  - rewrite app_nth1 by lia. reflexivity.
  - rewrite app_nth2 by (simpl; lia). replace (S p * length l + v - length l)%nat with (p * length l + v)%nat by (simpl; lia). apply IH; lia.
Qed.
Lemma concat_repeat_length : forall A (l : list A) P, length (concat (repeat l P)) = (P * length l)%nat.
Proof. induction P; simpl; auto. rewrite app_length, IHP. reflexivity. Qed.

Lemma firstn_S_rsum : forall l t, (t < length l)%nat -> rsum (firstn (S t) l) = rsum (firstn t l) + nth t l 0.
Proof.
  induction l as [|a l IH]; intros t H; simpl in H; [lia|]. destruct t as [|t]; [simpl; lra|].
  change (rsum (firstn (S (S t)) (a :: l))) with (a + rsum (firstn (S t) l)). change (rsum (firstn (S t) (a :: l))) with (a + rsum (firstn t l)).
  rewrite IH by lia. simpl nth. lra.
Qed.

Lemma cumsum_const_scale : forall (sg : list R) (w s std : R) (steps : nat) c t, std <> 0 -> length sg = steps -> (t <= steps)%nat ->
  cumsum (fun u _ => ndiv (nmul (nmul (nth u (Fin 0 :: fins sg) NaN) (Fin w)) (Fin s)) (Fin std)) t c
  = Fin (w * s / std * rsum (firstn t sg)).
Proof.
  intros sg w s std steps c t Hs Hl. induction t as [|t IH]; intros Ht.
  - cbn [cumsum nth nmul]. rewrite ndiv_fin by auto. f_equal. simpl. unfold Rdiv. ring.
  - cbn [cumsum]. rewrite IH by lia. cbn [nth]. rewrite nth_fins by lia. cbn [nmul]. rewrite ndiv_fin by auto. cbn [nadd].
    rewrite firstn_S_rsum by lia. f_equal. field. auto.
Qed.
Lemma cumsum_nan : forall f c t, f 0%nat c = NaN -> cumsum f t c = NaN.
Proof. intros f c t H. induction t; cbn [cumsum]; auto. rewrite IHt. reflexivity. Qed.

Lemma quasi_inv : forall tech f vol base x0 dt steps P b out, base x0 dt steps P = Ok b ->
  quasi_path_np tech f vol base x0 dt steps P = Ok out ->
  nrow out = nrow b /\ ncol out = ncol b /\ bfits (concat (repeat (map (nmul f) vol) P)) (ncol b) = true
  /\ forall c, (c < ncol b)%nat -> exists sg, quasi_col tech b c = Ok sg
       /\ forall t, at2 out t c = nadd (at2 b t c) (cumsum (fun u c => ndiv (nmul (nmul (nth u sg NaN) (bget (concat (repeat (map (nmul f) vol) P)) c)) (nsqrt dt))
                                                              (nstd 2 (removelast (tl sg)))) t c).
Proof.
  intros tech f vol base x0 dt steps P b out Hb H. unfold quasi_path_np in H. rewrite Hb in H. cbn [bind] in H.
  apply bind_ok in H as (ind & Hi & H). destruct (bfits _ _) eqn:Eb; [|discriminate]. injection H as <-. cbn [nrow ncol at2].
  split; [auto|]. split; [auto|]. split; [auto|]. intros c Hc.
  assert (Hn : nth_error (seq 0 (ncol b)) c = Some c).
  { rewrite (nth_error_nth' _ O) by (rewrite seq_length; auto). rewrite seq_nth by auto. reflexivity. }
  destruct (mapM_ok_nth _ _ _ _ _ Hi _ _ Hn) as (sg & H1 & H2). exists sg. split; [auto|]. intros t. f_equal.
  rewrite (nth_error_nth _ _ [] H1) || idtac.
  induction t as [|t IH]; cbn [cumsum].
  - rewrite (nth_error_nth _ _ [] H1). reflexivity.
  - rewrite IH. rewrite (nth_error_nth _ _ [] H1). reflexivity.
Qed.

(** A QuasiRandom object over Brownian motion with drifts d and vols vol (one per variate). *)
Definition quasi_obj (tech : list num -> list num) (f : R) (d vol : list R) (L : option (nat -> nat -> R)) : obj quasi :=
  mkObj (mkQ tech (Fin f) (mkBM (fins d) (fins vol) None (option_map (farr (length d) (length d)) L))) (Fin 2) unfitted.
Definition base_obj (d vol : list R) (L : option (nat -> nat -> R)) : obj bmpar :=
  mkObj (mkBM (fins d) (fins vol) None (option_map (farr (length d) (length d)) L)) (Fin 2) unfitted.

(** For column v of path p, with an indicator function that returns one value per value given: the path is the base path
    (same seed and arguments) plus one constant times the running sum of the signal; the constant makes the sample standard
    deviation (ddof 2) of the signal, its last value left out, equal to |f| |vol| sqrt(dt). *)
Theorem C35_quasi_path : forall tech f d vol L x0 dt z steps P out base p v,
  length vol = length d -> 0 < dt ->
  quasi_path_sample (quasi_obj tech f d vol L) (fnoise z) (X0Data (DNp1 (fins x0))) (Some (Fin dt)) steps P None None None true = Ok out ->
  bm_path_sample (base_obj d vol L) (fnoise z) (X0Data (DNp1 (fins x0))) (Some (Fin dt)) steps P None None None true = Ok base ->
  (p < P)%nat -> (v < length d)%nat ->
  let c := (p * length d + v)%nat in
  length (signal tech base c) = steps -> (4 <= steps)%nat -> 0 < rvar 2 (interior tech base c) ->
  let k := f * nth v vol 0 * sqrt dt / sqrt (rvar 2 (interior tech base c)) in
  out_rows out = out_rows base /\ out_cols out = out_cols base
  /\ (forall t, (t <= steps)%nat -> out_at out t c = nadd (out_at base t c) (Fin (k * rsum (firstn t (signal tech base c)))))
  /\ sqrt (rvar 2 (map (Rmult k) (interior tech base c))) = Rabs f * Rabs (nth v vol 0) * sqrt dt.
Proof.
  intros tech f d vol L x0 dt z steps P out base p v Hvol Hdt Hq Hb Hp Hv c Hsig Hst Hvar k.
  unfold quasi_path_sample in Hq. unfold bm_path_sample in Hb. cbn [o_fit o_par quasi_obj base_obj q_tech q_f q_base bm_vol] in *.
  rewrite path_sample_plain in Hq, Hb by auto.
  apply bind_ok in Hb as (b & Hb & Eb). injection Eb as <-. apply bind_ok in Hq as (a & Ha & Ea). injection Ea as <-.
  destruct (bm_shape _ _ _ _ _ _ _ Hb) as (B1 & B2 & B3). cbn [bm_drift] in B1, B3. rewrite length_fins in B1, B3.
  destruct (quasi_inv _ _ _ _ _ _ _ _ _ _ Hb Ha) as (Q1 & Q2 & Q3 & Q4). cbn [out_rows out_cols out_at].
  assert (Hc : (c < ncol b)%nat) by (rewrite B3; subst c; nia).
  destruct (Q4 c Hc) as (sg & Hsg & Hat).
  assert (Esg : sg = Fin 0 :: fins (signal tech (ONp b) c)).
  { unfold quasi_col in Hsg. rewrite nan_to_num_fins in Hsg. fold (column (ONp b) c) in Hsg.
    change (col b c) with (column (ONp b) c) in Hsg. fold (signal tech (ONp b) c) in Hsg. rewrite length_fins, Hsig, B2 in Hsg.
    replace (S steps - 1)%nat with steps in Hsg by lia. rewrite Nat.eqb_refl in Hsg. congruence. }
  assert (Hw : bget (concat (repeat (map (nmul (Fin f)) (fins vol)) P)) c = Fin (f * nth v vol 0)).
  { assert (El : length (map (nmul (Fin f)) (fins vol)) = length d) by (rewrite map_length, length_fins; auto).
    assert (En : nth c (concat (repeat (map (nmul (Fin f)) (fins vol)) P)) NaN = Fin (f * nth v vol 0)).
    { unfold c. rewrite <- El at 1. rewrite concat_repeat_nth by lia. unfold fins. rewrite map_map.
      rewrite (nth_indep _ NaN (nmul (Fin f) (Fin 0))) by (rewrite map_length; lia).
      rewrite (map_nth (fun x => nmul (Fin f) (Fin x)) vol 0 v). reflexivity. }
    unfold bget. destruct (Nat.eqb_spec (length (concat (repeat (map (nmul (Fin f)) (fins vol)) P))) 1) as [E|E]; [|exact En].
    rewrite concat_repeat_length, El in E. assert (Ec : c = 0%nat) by (subst c; nia). rewrite Ec in En. exact En. }
  assert (Hlen : (2 < length (interior tech (ONp b) c))%nat).
  { unfold interior. assert (Hr : forall A (l : list A), length (removelast l) = (length l - 1)%nat).
    { induction l as [|x l IH]; auto. destruct l; auto. cbn [removelast length] in *. rewrite IH. lia. }
    rewrite Hr, Hsig. lia. }
  assert (Hs : 0 < sqrt (rvar 2 (interior tech (ONp b) c))) by (apply sqrt_lt_R0; auto).
  split; [auto|]. split; [auto|]. split.
  - intros t Ht. rewrite Hat. f_equal. rewrite Esg. cbn [tl].
    assert (Er : removelast (fins (signal tech (ONp b) c)) = map Fin (interior tech (ONp b) c)).
    { unfold interior, fins. generalize (signal tech (ONp b) c). induction l as [|x l IH]; auto. cbn [map removelast]. rewrite IH. destruct l; reflexivity. }
    rewrite Er, nstd_fin by auto. rewrite nsqrt_fin by lra.
    unfold k. rewrite <- (cumsum_const_scale (signal tech (ONp b) c) (f * nth v vol 0) (sqrt dt) (sqrt (rvar 2 (interior tech (ONp b) c))) steps c t) by (auto; lra).
    clear Ht. induction t as [|t IH]; cbn [cumsum].
    + rewrite Hw. reflexivity.
    + rewrite IH, Hw. reflexivity.
  - assert (Hne : interior tech (ONp b) c <> []) by (intros E; rewrite E in Hlen; simpl in Hlen; lia).
    pose proof (rvar_affine _ (fun x => x) 0 k (interior tech (ONp b) c) 2 Hne) as E. rewrite map_id in E.
    rewrite (map_ext (Rmult k) (fun x => 0 + k * x)) by (intros; ring). rewrite E.
    rewrite sqrt_mult by (apply Rle_0_sqr || lra). change (k * k) with (Rsqr k). rewrite sqrt_Rsqr_abs. unfold k.
    set (S := sqrt (rvar 2 (interior tech (ONp b) c))) in *. unfold Rdiv. rewrite !Rabs_mult.
    rewrite (Rabs_right (sqrt dt)) by (apply Rle_ge, sqrt_pos). rewrite (Rabs_right (/ S)) by (left; apply Rinv_0_lt_compat; auto).
    field. lra.
Qed.
Print Assumptions C35_quasi_path.

(** A signal that is constant (its last value left out) turns the whole column into NaN, the first row included. *)
Theorem C35_constant_signal_nan : forall tech f d vol L x0 dt z steps P out base p v a,
  0 < dt ->
  quasi_path_sample (quasi_obj tech f d vol L) (fnoise z) (X0Data (DNp1 (fins x0))) (Some (Fin dt)) steps P None None None true = Ok out ->
  bm_path_sample (base_obj d vol L) (fnoise z) (X0Data (DNp1 (fins x0))) (Some (Fin dt)) steps P None None None true = Ok base ->
  (p < P)%nat -> (v < length d)%nat ->
  let c := (p * length d + v)%nat in
  length (signal tech base c) = steps -> (forall r, In r (interior tech base c) -> r = a) ->
  (exists w, bget (concat (repeat (map (nmul (Fin f)) (fins vol)) P)) c = Fin w) ->
  forall t, (t <= steps)%nat -> out_at out t c = NaN.
Proof.
  intros tech f d vol L x0 dt z steps P out base p v a Hdt Hq Hb Hp Hv c Hsig Hconst (w & Hw) t Ht.
  unfold quasi_path_sample in Hq. unfold bm_path_sample in Hb. cbn [o_fit o_par quasi_obj base_obj q_tech q_f q_base bm_vol] in *.
  rewrite path_sample_plain in Hq, Hb by auto.
  apply bind_ok in Hb as (b & Hb & Eb). injection Eb as <-. apply bind_ok in Hq as (a' & Ha & Ea). injection Ea as <-.
  destruct (bm_shape _ _ _ _ _ _ _ Hb) as (B1 & B2 & B3). cbn [bm_drift] in B1, B3. rewrite length_fins in B1, B3.
  destruct (quasi_inv _ _ _ _ _ _ _ _ _ _ Hb Ha) as (Q1 & Q2 & Q3 & Q4). cbn [out_rows out_cols out_at].
  assert (Hc : (c < ncol b)%nat) by (rewrite B3; subst c; nia).
  destruct (Q4 c Hc) as (sg & Hsg & Hat).
  assert (Esg : sg = Fin 0 :: fins (signal tech (ONp b) c)).
  { unfold quasi_col in Hsg. rewrite nan_to_num_fins in Hsg.
    change (col b c) with (column (ONp b) c) in Hsg. fold (signal tech (ONp b) c) in Hsg. rewrite length_fins, Hsig, B2 in Hsg.
    replace (S steps - 1)%nat with steps in Hsg by lia. rewrite Nat.eqb_refl in Hsg. congruence. }
  rewrite Hat.
  assert (Er : removelast (fins (signal tech (ONp b) c)) = map Fin (interior tech (ONp b) c)).
  { unfold interior, fins. generalize (signal tech (ONp b) c). induction l as [|x l IH]; auto. cbn [map removelast]. rewrite IH. destruct l; reflexivity. }
  assert (Hz : nstd 2 (map Fin (interior tech (ONp b) c)) = Fin 0 \/ nstd 2 (map Fin (interior tech (ONp b) c)) = NaN).
  { set (l := interior tech (ONp b) c) in *. unfold nstd, nvar.
    destruct l as [|r0 l0] eqn:El.
    - right. cbn. unfold reqb. destruct (Req_EM_T 0 0); [|congruence]. unfold sgn_inf, rltb. destruct (Rlt_dec 0 0); [lra|]. reflexivity.
    - rewrite <- El in *. assert (Hne : l <> []) by (rewrite El; discriminate).
      rewrite nmean_fin by auto.
      assert (Em : rmean l = a).
      { rewrite <- (map_id l). rewrite (map_ext_in (fun x => x) (fun _ => a)) by (intros; apply Hconst; auto).
        unfold rmean. rewrite rsum_const, map_length. pose proof (INR_length_pos _ l Hne). field. lra. }
      rewrite map_map.
      assert (Es : map (fun x => nsqr (nsub (Fin x) (Fin (rmean l)))) l = map Fin (map (fun _ => 0) l)).
      { rewrite map_map. apply map_ext_in. intros x Hx. rewrite (Hconst x Hx), Em. cbn. f_equal. ring. }
      rewrite Es, nsum_fin, rsum_const, Rmult_0_r. unfold nofnat. rewrite map_length.
      destruct (Nat.eq_dec (length l - 2) 0) as [E0|E0].
      + right. rewrite E0. cbn. unfold reqb. destruct (Req_EM_T 0 0); [|congruence]. unfold sgn_inf, rltb. destruct (Rlt_dec 0 0); [lra|]. reflexivity.
      + left. rewrite ndiv_fin by (apply not_0_INR; auto). unfold Rdiv. rewrite Rmult_0_l. rewrite nsqrt_fin by lra. rewrite sqrt_0. reflexivity. }
  rewrite (cumsum_nan _ c t).
  - destruct (at2 b t c); reflexivity.
  - rewrite Esg. cbn [nth tl]. rewrite Er, Hw. rewrite nsqrt_fin by lra. cbn [nmul]. rewrite !Rmult_0_l.
    destruct Hz as [-> | ->]; [|reflexivity]. cbn. unfold reqb. destruct (Req_EM_T 0 0); [|congruence]. unfold sgn_inf, rltb. destruct (Rlt_dec 0 0); [lra|]. reflexivity.
Qed.
Print Assumptions C35_constant_signal_nan.

(** Simulations of one or two steps are entirely NaN, whatever the indicator. *)
Theorem C35_short_paths_nan : forall tech f d vol L x0 dt z steps P out base p v,
  (steps <= 2)%nat -> length vol = length d -> 0 < dt ->
  quasi_path_sample (quasi_obj tech f d vol L) (fnoise z) (X0Data (DNp1 (fins x0))) (Some (Fin dt)) steps P None None None true = Ok out ->
  bm_path_sample (base_obj d vol L) (fnoise z) (X0Data (DNp1 (fins x0))) (Some (Fin dt)) steps P None None None true = Ok base ->
  (p < P)%nat -> (v < length d)%nat ->
  let c := (p * length d + v)%nat in
  length (signal tech base c) = steps -> forall t, (t <= steps)%nat -> out_at out t c = NaN.
Proof.
  intros tech f d vol L x0 dt z steps P out base p v Hst Hvol Hdt Hq Hb Hp Hv c Hsig t Ht.
  assert (Hint : forall r, In r (interior tech base c) -> r = nth 0 (signal tech base c) 0).
  { unfold interior. destruct (signal tech base c) as [|r1 [|r2 [|r3 l]]]; cbn in Hsig; try lia; cbn; intros r Hr; tauto || (destruct Hr as [<-|[]]; auto). }
  eapply (C35_constant_signal_nan tech f d vol L x0 dt z steps P out base p v); eauto.
  assert (El : length (map (nmul (Fin f)) (fins vol)) = length d) by (rewrite map_length, length_fins; auto).
  exists (f * nth v vol 0).
  assert (En : nth c (concat (repeat (map (nmul (Fin f)) (fins vol)) P)) NaN = Fin (f * nth v vol 0)).
  { unfold c. rewrite <- El at 1. rewrite concat_repeat_nth by lia. unfold fins. rewrite map_map.
    rewrite (nth_indep _ NaN (nmul (Fin f) (Fin 0))) by (rewrite map_length; lia).
    rewrite (map_nth (fun x => nmul (Fin f) (Fin x)) vol 0 v). reflexivity. }
  unfold bget. destruct (Nat.eqb_spec (length (concat (repeat (map (nmul (Fin f)) (fins vol)) P))) 1) as [E|E]; [|exact En].
  rewrite concat_repeat_length, El in E. assert (Ec : c = 0%nat) by (subst c; nia). rewrite Ec in En. exact En.
Qed.
Print Assumptions C35_short_paths_nan.

(** One vol for several variates works for one path only: with two or more paths the shapes do not fit. *)
Theorem C35_shared_vol_rejected : forall q z x0 dt steps P b,
  length (bm_vol (q_base q)) = 1%nat -> (2 <= length (bm_drift (q_base q)))%nat -> (2 <= P)%nat ->
  bm_path_np (q_base q) z x0 dt steps P = Ok b ->
  (forall c, (c < ncol b)%nat -> length (q_tech q (removelast (col b c))) = steps) ->
  forall k, ngtb dt (Fin 0) = true ->
  quasi_path_sample (mkObj q k unfitted) z (X0Data (DNp1 x0)) (Some dt) steps P None None None true = Raise ValueError.
Proof.
  intros q z x0 dt steps P b Hv Hd HP Hb Ht k Hdt. unfold quasi_path_sample, path_sample, preprocess_path. cbn [o_fit o_par to_row bind fst snd].
  rewrite Hdt. cbn [bind]. unfold quasi_path_np. rewrite Hb. cbn [bind].
  destruct (bm_shape _ _ _ _ _ _ _ Hb) as (B1 & B2 & B3).
  rewrite (mapM_ok_intro _ _ _ (fun c => Fin 0 :: map nan_to_num (q_tech q (removelast (col b c))))).
  - cbn [bind]. unfold bfits. rewrite concat_repeat_length, map_length, Hv, B3, Nat.mul_1_r.
    destruct (Nat.eqb_spec P 1); [lia|]. destruct (Nat.eqb_spec P (length (bm_drift (q_base q)) * P)); [nia|]. reflexivity.
  - intros c Hc. apply in_seq in Hc. unfold quasi_col. rewrite map_length, Ht by lia. rewrite B2.
    replace (S steps - 1)%nat with steps by lia. rewrite Nat.eqb_refl. reflexivity.
Qed.
Print Assumptions C35_shared_vol_rejected.

(* ------------------------------------------------------------------ *)
(** ** C76 fit of QuasiRandom *)

(** fit never succeeds, yet on numpy data it moves the default start and step of later simulations to that data. *)
Theorem C76_quasi_fit_fails : forall infer o x dt, exists e, snd (fit infer quasi_fit_np o x dt) = Raise e.
Proof.
  intros infer o x dt. unfold fit. destruct (preprocess_fit infer (o_fit o) x dt) as [st [[v d]|e]]; cbn; eauto.
Qed.
Print Assumptions C76_quasi_fit_fails.

Theorem C76_quasi_fit_moves_start : forall infer o x dt, (0 < nrow x)%nat ->
  let (o', r) := fit infer quasi_fit_np o (DNp2 x) (Some dt) in
  r = Raise NotImplementedError /\ o_par o' = o_par o
  /\ forall z steps P,
      quasi_path_sample o' z X0None None steps P None None None true
      = quasi_path_sample (mkObj (o_par o) (o_k o) unfitted) z (X0Data (DNp1 (row x 0))) (Some dt) steps P None None None true.
Proof.
  intros infer o x dt Hx. unfold fit. rewrite preprocess_np2 by auto. cbn [quasi_fit_np]. split; [auto|]. split; [auto|].
  intros z steps P. unfold quasi_path_sample, path_sample, preprocess_path.
  cbn [o_fit o_par f_x0 f_xn f_idx f_dt unfitted to_row bind fst snd is_some ix_has no_index orb ix_min ix_freq].
  destruct (ngtb dt (Fin 0)); cbn [bind]; [|reflexivity]. destruct (quasi_path_np _ _ _ _ _ _ _ _); reflexivity.
Qed.
Print Assumptions C76_quasi_fit_moves_start.

(* ------------------------------------------------------------------ *)
(** ** C77 QuasiRandom paths depend on the horizon *)

Lemma quasi_ok : forall tech f vol base x0 dt steps P b, base x0 dt steps P = Ok b -> nrow b = S steps ->
  bfits (concat (repeat (map (nmul f) vol) P)) (ncol b) = true ->
  (forall l, length (tech l) = length l) ->
  exists out, quasi_path_np tech f vol base x0 dt steps P = Ok out.
Proof.
  intros tech f vol base x0 dt steps P b Hb Hr Hf Ht. unfold quasi_path_np. rewrite Hb. cbn [bind].
  rewrite (mapM_ok_intro _ _ _ (fun c => Fin 0 :: map nan_to_num (tech (removelast (col b c))))).
  - cbn [bind]. rewrite Hf. eauto.
  - intros c Hc. unfold quasi_col. rewrite map_length, Ht, Hr.
    assert (Hl : forall A (l : list A), length (removelast l) = (length l - 1)%nat).
    { induction l as [|x l IH]; auto. destruct l; auto. cbn [removelast length] in *. rewrite IH. lia. }
    rewrite Hl. unfold col. rewrite map_length, seq_length, Hr, Nat.eqb_refl. reflexivity.
Qed.

(** witness: the indicator that counts 0, 1, 2, ... over a motionless base path *)
Definition counting (l : list num) : list num := map (fun i => Fin (INR i)) (seq 0 (length l)).
Lemma counting_signal : forall b c steps, nrow b = S steps -> signal counting (ONp b) c = map INR (seq 0 steps).
Proof.
  intros b c steps Hr. unfold signal, counting, column. cbn [out_rows]. rewrite map_map.
  assert (Hl : forall A (l : list A), length (removelast l) = (length l - 1)%nat).
  { induction l as [|x l IH]; auto. destruct l; auto. cbn [removelast length] in *. rewrite IH. lia. }
  rewrite Hl, map_length, seq_length, Hr. replace (S steps - 1)%nat with steps by lia. apply map_ext. reflexivity.
Qed.

Lemma counting_path : forall steps, (4 <= steps)%nat ->
  exists out base,
    quasi_path_sample (quasi_obj counting 1 [0] [1] None) (fnoise (fun _ => 0)) (X0Data (DNp1 (fins [0]))) (Some (Fin 1)) steps 1 None None None true = Ok out
    /\ bm_path_sample (base_obj [0] [1] None) (fnoise (fun _ => 0)) (X0Data (DNp1 (fins [0]))) (Some (Fin 1)) steps 1 None None None true = Ok base
    /\ signal counting base 0 = map INR (seq 0 steps)
    /\ forall t, out_at base t 0 = Fin (bm_real [0] [1] None [0] 1 (fun _ => 0) 1 t 0 0).
Proof.
  intros steps Hs.
  destruct (bm_core [0] [1] None None [0] 1 (fun _ => 0) steps 1) as (b & Hb & Hr & Hc & Hat); [simpl; lia|left; reflexivity|discriminate|exists 1%nat; reflexivity|lra|].
  destruct (quasi_ok counting (Fin 1) (fins [1]) _ (fins [0]) (Fin 1) steps 1 b Hb Hr) as (out & Ho).
  - rewrite Hc. reflexivity.
  - intros l. unfold counting. rewrite map_length, seq_length. reflexivity.
  - exists (ONp out), (ONp b). unfold quasi_path_sample, bm_path_sample. rewrite !path_sample_plain by lra.
    cbn [o_par quasi_obj base_obj q_tech q_f q_base bm_vol].
    split; [|split; [|split]].
    + change (length [0]) with 1%nat in *. rewrite Ho. reflexivity.
    + rewrite Hb. reflexivity.
    + apply counting_signal. exact Hr.
    + intros t. apply (Hat t 0%nat 0%nat); simpl; lia.
Qed.

(** Unlike C23: the first rows of a longer simulation are not the rows of the shorter one, because the scale of the signal is
    computed from the whole path. *)
Theorem C77_quasi_prefix_refuted : exists o z x0 dt n P t c out out',
  quasi_path_sample o z x0 dt n P None None None true = Ok out
  /\ quasi_path_sample o z x0 dt (n + 1) P None None None true = Ok out'
  /\ (t <= n)%nat /\ out_at out t c <> out_at out' t c.
Proof.
  destruct (counting_path 4) as (o4 & b4 & Q4 & B4 & S4 & A4); [lia|].
  destruct (counting_path 5) as (o5 & b5 & Q5 & B5 & S5 & A5); [lia|].
  assert (I4 : interior counting b4 0 = [0; 1; 2]) by (unfold interior; rewrite S4; cbn [seq map removelast]; repeat (f_equal; try (simpl; lra))).
  assert (I5 : interior counting b5 0 = [0; 1; 2; 3]) by (unfold interior; rewrite S5; cbn [seq map removelast]; repeat (f_equal; try (simpl; lra))).
  assert (V4 : rvar 2 (interior counting b4 0) = 2) by (rewrite I4; unfold rvar, rmean; cbn; field).
  assert (V5 : rvar 2 (interior counting b5 0) = 5 / 2) by (rewrite I5; unfold rvar, rmean; cbn; field).
  destruct (C35_quasi_path counting 1 [0] [1] None [0] 1 (fun _ => 0) 4 1 o4 b4 0 0) as (_ & _ & P4 & _); auto; try lra; try (simpl; lia).
  { cbn [length Nat.mul Nat.add]. rewrite S4, map_length, seq_length. reflexivity. }
  { cbn [length Nat.mul Nat.add]. rewrite V4. lra. }
  destruct (C35_quasi_path counting 1 [0] [1] None [0] 1 (fun _ => 0) 5 1 o5 b5 0 0) as (_ & _ & P5 & _); auto; try lra; try (simpl; lia).
  { cbn [length Nat.mul Nat.add]. rewrite S5, map_length, seq_length. reflexivity. }
  { cbn [length Nat.mul Nat.add]. rewrite V5. lra. }
  cbn [length Nat.mul Nat.add nth] in P4, P5.
  do 10 eexists. split; [exact Q4|]. split; [exact Q5|]. split; [|].
  2:{ instantiate (1 := 0%nat). instantiate (1 := 2%nat). rewrite (P4 2%nat), (P5 2%nat) by lia. rewrite A4, A5, S4, S5, V4, V5.
    cbn [nadd]. intros E. apply (f_equal real_of) in E. cbn [real_of] in E. apply Rplus_eq_reg_l in E.
    change (rsum (firstn 2 (map INR (seq 0 4)))) with (0 + (1 + 0)) in E. change (rsum (firstn 2 (map INR (seq 0 5)))) with (0 + (1 + 0)) in E.
    rewrite sqrt_1 in E. assert (H2 : 0 < sqrt 2) by (apply sqrt_lt_R0; lra). assert (H5 : 0 < sqrt (5 / 2)) by (apply sqrt_lt_R0; lra).
    assert (H25 : sqrt 2 < sqrt (5 / 2)) by (apply sqrt_lt_1; lra).
    assert (E' : / sqrt 2 = / sqrt (5 / 2)) by lra. apply (f_equal Rinv) in E'. rewrite !Rinv_inv in E'. lra. }
  lia.
Qed.
Print Assumptions C77_quasi_prefix_refuted.

Example C35_example : exists out base, (* the hypotheses of C35_quasi_path are met by the counting indicator *)
    quasi_path_sample (quasi_obj counting 1 [0] [1] None) (fnoise (fun _ => 0)) (X0Data (DNp1 (fins [0]))) (Some (Fin 1)) 4 1 None None None true = Ok out
    /\ bm_path_sample (base_obj [0] [1] None) (fnoise (fun _ => 0)) (X0Data (DNp1 (fins [0]))) (Some (Fin 1)) 4 1 None None None true = Ok base
    /\ length (signal counting base 0) = 4%nat /\ 0 < rvar 2 (interior counting base 0).
Proof.
  destruct (counting_path 4) as (o4 & b4 & Q4 & B4 & S4 & A4); [lia|]. exists o4, b4. split; [auto|]. split; [auto|].
  unfold interior. rewrite S4. split; [reflexivity|]. unfold rvar, rmean. cbn. lra.
Qed.
