(** The exponentially weighted loops compute the weighted mean and the weighted variance. *)
From Coq Require Import Reals Lra Psatz ZArith List Arith Bool Lia.
From Verif Require Import Base Num Sums Feat_Ops Feat_Spec Feat_Proofs.
Import ListNotations.
Open Scope R_scope.

Lemma wsum_0 : forall a f l, wsum a f l 0 = on_present f (nth 0 l NaN).
Proof. intros. unfold wsum. rewrite S_succ. cbn [sumn Nat.sub]. unfold sumn. cbn. ring. Qed.
Lemma wsum_S : forall a f l i, wsum a f l (S i) = (1 - a) * wsum a f l i + on_present f (nth (S i) l NaN).
Proof.
  intros a f l i. unfold wsum. rewrite (S_succ (S i)). replace (S i - S i)%nat with 0%nat by lia. rewrite pow_O, Rmult_1_l. f_equal.
  rewrite <- S_scal. apply S_ext. intros j Hj. replace (S i - j)%nat with (S (i - j)) by lia. rewrite <- tech_pow_Rmult. ring.
Qed.
Lemma wsum_nonneg : forall a f l i, 0 <= a <= 1 -> (forall x, 0 <= f x) -> 0 <= wsum a f l i.
Proof. intros a f l i Ha Hf. induction i as [|i IH]; [rewrite wsum_0|rewrite wsum_S]; match goal with |- context [nth ?k l NaN] => destruct (nth k l NaN) as [r| | |]; cbn [on_present]; [pose proof (Hf r)| | |] end; nra. Qed.

Definition init_e : ewm_state := (None, 1, 0%nat).
Definition est (a : R) (l : list num) (i : nat) : ewm_state := fold_left (ewm_step a) (firstn (S i) l) init_e.
Lemma firstn_snoc : forall (l : list num) i, (i < length l)%nat -> firstn (S i) l = firstn i l ++ [nth i l NaN].
Proof. induction l as [|x l IH]; intros i H; cbn [length] in H; [lia|]. destruct i; [reflexivity|]. cbn [firstn nth app]. f_equal. apply IH. lia. Qed.
Lemma est_0 : forall a l, (0 < length l)%nat -> est a l 0 = ewm_step a init_e (nth 0 l NaN).
Proof. intros a l H. unfold est. destruct l; [cbn in H; lia|reflexivity]. Qed.
Lemma est_S : forall a l i, (S i < length l)%nat -> est a l (S i) = ewm_step a (est a l i) (nth (S i) l NaN).
Proof. intros a l i H. unfold est. rewrite (firstn_snoc l (S i)) by auto. rewrite fold_left_app. reflexivity. Qed.
Lemma ewm_run_nth : forall a m l s i, (i < length l)%nat -> nth i (ewm_run a m s l) NaN = ewm_out m (fold_left (ewm_step a) (firstn (S i) l) s).
Proof.
  intros a m. induction l as [|x l IH]; intros s i H; cbn [length] in H; [lia|]. cbn [ewm_run]. destruct i as [|i]; cbn [nth]; [reflexivity|].
  rewrite (IH _ i) by lia. reflexivity.
Qed.

Definition einv (a : R) (l : list num) (i : nat) (s : ewm_state) : Prop :=
  match s with
  | (None, old, n) => old = 1 /\ n = 0%nat /\ (forall j x, (j <= i)%nat -> nth j l NaN <> Fin x) /\ wsum a (fun _ => 1) l i = 0
  | (Some m, old, n) => (1 <= n)%nat /\ old = wsum a (fun _ => 1) l i /\ m * wsum a (fun _ => 1) l i = wsum a (fun x => x) l i
      /\ (exists j x, (j <= i)%nat /\ nth j l NaN = Fin x)
      /\ (forall lo hi, (forall j x, (j <= i)%nat -> nth j l NaN = Fin x -> lo <= x <= hi) -> lo <= m <= hi)
  end.
Lemma wmean_between : forall w m c lo hi, 0 <= w -> lo <= m <= hi -> lo <= c <= hi -> lo <= (w * m + 1 * c) / (w + 1) <= hi.
Proof.
  intros w m c lo hi Hw Hm Hc. assert (P : 0 < w + 1) by lra. split; apply (Rmult_le_reg_r (w + 1)); auto; unfold Rdiv; rewrite Rmult_assoc, Rinv_l by lra; nra.
Qed.
Lemma est_inv : forall a l i, 0 <= a <= 1 -> (i < length l)%nat -> einv a l i (est a l i).
Proof.
  intros a l i Ha. induction i as [|i IH]; intros Hi.
  - rewrite est_0 by auto. unfold init_e, ewm_step. destruct (nth 0 l NaN) as [x| | |] eqn:E; cbn [present einv]; rewrite ?wsum_0, ?E; cbn [on_present].
    + split; [lia|]. split; [auto|]. split; [lra|]. split; [exists 0%nat, x; auto|]. intros lo hi H. apply (H 0%nat); auto.
    + repeat split; auto. intros j x Hj. replace j with 0%nat by lia. rewrite E. discriminate.
    + repeat split; auto. intros j x Hj. replace j with 0%nat by lia. rewrite E. discriminate.
    + repeat split; auto. intros j x Hj. replace j with 0%nat by lia. rewrite E. discriminate.
  - rewrite est_S by auto. specialize (IH ltac:(lia)). pose proof (wsum_nonneg a (fun _ => 1) l i Ha ltac:(intros; lra)) as W0.
    destruct (est a l i) as [[[m|] old] n]; cbn [einv] in IH.
    + destruct IH as (I1 & I2 & I3 & (j0 & x0 & J1 & J2) & I5).
      assert (G : forall c, nth (S i) l NaN = Fin c -> einv a l (S i) (Some (if reqb m c then m else (old * (1 - a) * m + 1 * c) / (old * (1 - a) + 1)), old * (1 - a) + 1, S n)).
      { intros c E. cbn [einv]. rewrite !wsum_S, E. cbn [on_present].
        assert (Q : 0 <= old * (1 - a)) by (rewrite I2; nra).
        assert (R : (if reqb m c then m else (old * (1 - a) * m + 1 * c) / (old * (1 - a) + 1)) = (old * (1 - a) * m + 1 * c) / (old * (1 - a) + 1)).
        { unfold reqb. destruct (Req_EM_T m c) as [->|]; [|reflexivity]. field. lra. }
        rewrite R. split; [lia|]. split; [rewrite I2; ring|]. split.
        - rewrite <- I3. rewrite I2 in *. field. lra.
        - split; [exists (S i), c; auto|]. intros lo hi H. apply wmean_between; auto. apply I5. intros j x Hj. apply H. lia. apply (H (S i)); auto. }
      destruct (nth (S i) l NaN) as [c| | |] eqn:E; cbn [ewm_step present].
      * apply G. reflexivity.
      * cbn [einv]. rewrite !wsum_S, E. cbn [on_present]. split; [lia|]. split; [rewrite I2; ring|]. split; [rewrite <- I3; ring|]. split; [exists j0, x0; split; [lia|auto]|].
        intros lo hi H. apply I5. intros j x Hj. apply H. lia.
      * cbn [einv]. rewrite !wsum_S, E. cbn [on_present]. split; [lia|]. split; [rewrite I2; ring|]. split; [rewrite <- I3; ring|]. split; [exists j0, x0; split; [lia|auto]|].
        intros lo hi H. apply I5. intros j x Hj. apply H. lia.
      * cbn [einv]. rewrite !wsum_S, E. cbn [on_present]. split; [lia|]. split; [rewrite I2; ring|]. split; [rewrite <- I3; ring|]. split; [exists j0, x0; split; [lia|auto]|].
        intros lo hi H. apply I5. intros j x Hj. apply H. lia.
    + destruct IH as (I1 & I2 & I3 & I4).
      assert (X0 : wsum a (fun x => x) l i = 0).
      { clear - I3. induction i as [|i IH]; [rewrite wsum_0|rewrite wsum_S, IH by (intros j x Hj; apply I3; lia)]; match goal with |- context [nth ?k l NaN] => destruct (nth k l NaN) as [r| | |] eqn:E; cbn [on_present]; try lra; exfalso; apply (I3 k r); [lia|auto] end. }
      destruct (nth (S i) l NaN) as [c| | |] eqn:E; cbn [ewm_step present einv]; rewrite ?wsum_S, ?E; cbn [on_present].
      * split; [lia|]. split; [rewrite I1, I4; ring|]. split; [rewrite I4, X0; ring|]. split; [exists (S i), c; auto|]. intros lo hi H. apply (H (S i)); auto.
      * rewrite I4. repeat split; auto; [|ring]. intros j x Hj. destruct (Nat.eq_dec j (S i)) as [->|]; [rewrite E; discriminate|apply I3; lia].
      * rewrite I4. repeat split; auto; [|ring]. intros j x Hj. destruct (Nat.eq_dec j (S i)) as [->|]; [rewrite E; discriminate|apply I3; lia].
      * rewrite I4. repeat split; auto; [|ring]. intros j x Hj. destruct (Nat.eq_dec j (S i)) as [->|]; [rewrite E; discriminate|apply I3; lia].
Qed.

(** what the moving average shows at row i *)
Lemma ewm_nth : forall a l i, (i < length l)%nat -> nth i (ewm_run a 0 init_e l) NaN = ewm_out 0 (est a l i).
Proof. intros. apply ewm_run_nth. auto. Qed.
Lemma ewm_present : forall a l i x, 0 <= a <= 1 -> (i < length l)%nat -> nth i l NaN = Fin x ->
  1 <= wsum a (fun _ => 1) l i /\ nth i (ewm_run a 0 init_e l) NaN = Fin (wsum a (fun x => x) l i / wsum a (fun _ => 1) l i).
Proof.
  intros a l i x Ha Hi E. assert (W : 1 <= wsum a (fun _ => 1) l i).
  { destruct i as [|i]; [rewrite wsum_0, E; cbn [on_present]; lra|]. rewrite wsum_S, E. cbn [on_present]. pose proof (wsum_nonneg a (fun _ => 1) l i Ha ltac:(intros; lra)). nra. }
  split; [auto|]. rewrite ewm_nth by auto. pose proof (est_inv a l i Ha Hi) as I. destruct (est a l i) as [[[m|] old] n]; cbn [einv] in I.
  - destruct I as (I1 & _ & I3 & _). cbn [ewm_out]. rewrite (proj2 (Nat.leb_le _ _)) by lia. f_equal. rewrite <- I3. field. lra.
  - destruct I as (_ & _ & I & _). exfalso. apply (I i x); auto.
Qed.
Lemma ewm_gap : forall a l i, (i < length l)%nat -> (forall x, nth i l NaN <> Fin x) ->
  nth i (ewm_run a 0 init_e l) NaN = match i with O => NaN | S j => nth j (ewm_run a 0 init_e l) NaN end.
Proof.
  intros a l i Hi H. destruct i as [|i].
  - rewrite ewm_nth by auto. rewrite est_0 by auto. destruct (nth 0 l NaN) eqn:E; cbn; auto. exfalso. apply (H r). auto.
  - rewrite !ewm_nth by lia. rewrite est_S by auto. destruct (est a l i) as [[[m|] old] n]; destruct (nth (S i) l NaN) eqn:E; cbn [ewm_step present ewm_out]; auto; exfalso; apply (H r); auto.
Qed.
Lemma ewm_none : forall a l i, 0 <= a <= 1 -> (i < length l)%nat -> (forall j x, (j <= i)%nat -> nth j l NaN <> Fin x) -> nth i (ewm_run a 0 init_e l) NaN = NaN.
Proof.
  intros a l i Ha Hi H. rewrite ewm_nth by auto. pose proof (est_inv a l i Ha Hi) as I. destruct (est a l i) as [[[m|] old] n]; [|reflexivity].
  destruct I as (_ & _ & _ & (j & x & J1 & J2) & _). exfalso. apply (H j x); auto.
Qed.
Lemma ewm_some : forall a l i, 0 <= a <= 1 -> (i < length l)%nat -> (exists j x, (j <= i)%nat /\ nth j l NaN = Fin x) ->
  exists m, nth i (ewm_run a 0 init_e l) NaN = Fin m /\ m * wsum a (fun _ => 1) l i = wsum a (fun x => x) l i
  /\ (forall lo hi, (forall j x, (j <= i)%nat -> nth j l NaN = Fin x -> lo <= x <= hi) -> lo <= m <= hi).
Proof.
  intros a l i Ha Hi (j & x & J1 & J2). rewrite ewm_nth by auto. pose proof (est_inv a l i Ha Hi) as I. destruct (est a l i) as [[[m|] old] n]; cbn [einv] in I.
  - destruct I as (I1 & _ & I3 & _ & I5). exists m. cbn [ewm_out]. rewrite (proj2 (Nat.leb_le _ _)) by lia. auto.
  - destruct I as (_ & _ & I & _). exfalso. apply (I j x); auto.
Qed.
Lemma seen_dec : forall l i, (exists j x, (j <= i)%nat /\ nth j l NaN = Fin x) \/ (forall j x, (j <= i)%nat -> nth j l NaN <> Fin x).
Proof.
  intros l. induction i as [|i IH].
  - destruct (nth 0 l NaN) as [x| | |] eqn:E; [left; exists 0%nat, x; auto| | |]; right; intros j y Hj; replace j with 0%nat by lia; rewrite E; discriminate.
  - destruct IH as [(j & x & J1 & J2)|H]; [left; exists j, x; split; [lia|auto]|].
    destruct (nth (S i) l NaN) as [x| | |] eqn:E; [left; exists (S i), x; auto| | |]; right; intros j y Hj; (destruct (Nat.eq_dec j (S i)) as [->|]; [rewrite E; discriminate|apply H; lia]).
Qed.
Lemma ewm_within : forall a l i lo hi, 0 <= a <= 1 -> (forall j x, (j <= i)%nat -> nth j l NaN = Fin x -> lo <= x <= hi) ->
  within lo hi (nth i (ewm_run a 0 init_e l) NaN).
Proof.
  intros a l i lo hi Ha H. destruct (Nat.lt_ge_cases i (length l)) as [Hi|Hi].
  - destruct (seen_dec l i) as [S|N].
    + right. destruct (ewm_some a l i Ha Hi S) as (m & E & _ & B). exists m. split; [auto|]. apply B. auto.
    + left. apply ewm_none; auto.
  - left. apply nth_overflow. rewrite (proj1 (pref_ewm _ _ _ _)). auto.
Qed.

(** affine maps go through *)
Definition naff (b c : R) (x : num) : num := nadd (nmul (Fin b) x) (Fin c).
Lemma present_aff : forall b c x, present (naff b c x) = match present x with Some y => Some (b * y + c) | None => None end.
Proof. intros b c [x| | |]; unfold naff; cbn; try reflexivity; unfold sgn_inf; destruct (rltb 0 b), (rltb b 0); reflexivity. Qed.
Lemma ewm_affine : forall a m b c l, 0 <= a <= 1 -> ewm_run a m init_e (map (naff b c) l) = map (naff b c) (ewm_run a m init_e l).
Proof.
  intros a m b c l Ha.
  assert (G : forall l s s', 0 <= snd (fst s) -> snd (fst s') = snd (fst s) -> snd s' = snd s -> fst (fst s') = option_map (fun y => b * y + c) (fst (fst s)) ->
            ewm_run a m s' (map (naff b c) l) = map (naff b c) (ewm_run a m s l)).
  { clear l. induction l as [|x l IH]; intros [[mo old] n] [[mo' old'] n'] H0 H1 H2 H3; cbn [fst snd] in *; [reflexivity|]. subst old' n' mo'. cbn [map ewm_run]. cbv zeta. cbn [map].
    assert (O : forall q o o' n, ewm_out m (option_map (fun y => b * y + c) q, o, n) = naff b c (ewm_out m (q, o', n))).
    { intros [q|] o o' k; cbn [ewm_out option_map]; [|reflexivity]. destruct (Nat.leb _ k); [reflexivity|reflexivity]. }
    unfold ewm_step. rewrite !present_aff.
    destruct mo as [mm|], (present x) as [y|]; cbn [option_map].
    - assert (Q : 0 <= old * (1 - a)) by (apply Rmult_le_pos; lra).
      assert (R : Some (if reqb (b * mm + c) (b * y + c) then b * mm + c else (old * (1 - a) * (b * mm + c) + 1 * (b * y + c)) / (old * (1 - a) + 1))
                = option_map (fun y => b * y + c) (Some (if reqb mm y then mm else (old * (1 - a) * mm + 1 * y) / (old * (1 - a) + 1)))).
      { cbn [option_map]. f_equal. unfold reqb. destruct (Req_EM_T (b * mm + c) (b * y + c)) as [E|E], (Req_EM_T mm y) as [E'|E']; try (subst; reflexivity).
        - assert (P : 0 < old * (1 - a) + 1) by lra. set (w := old * (1 - a)) in *. replace (b * mm + c) with ((w * (b * mm + c) + 1 * (b * mm + c)) / (w + 1)) by (field; lra). rewrite E at 2. field. lra.
        - subst. exfalso. apply E. reflexivity.
        - field. lra. }
      rewrite R. f_equal; [apply O|]. apply IH; cbn [fst snd]; auto. lra.
    - f_equal; [apply (O (Some mm))|]. apply IH; cbn [fst snd]; auto. apply Rmult_le_pos; lra.
    - f_equal; [apply (O (Some y))|]. apply IH; cbn [fst snd]; auto.
    - f_equal. apply IH; cbn [fst snd]; auto. }
  apply G; cbn; auto. lra.
Qed.

(** ** the variance loop *)
Definition init_v : vstate := mkV None 0 1 1 1 0.
Definition vst (a : R) (l : list num) (i : nat) : vstate := fold_left (var_step a) (firstn (S i) l) init_v.
Lemma var_run_nth : forall a l s i, (i < length l)%nat -> nth i (var_run a s l) NaN = zsqrt (var_out (fold_left (var_step a) (firstn (S i) l) s)).
Proof.
  intros a. induction l as [|x l IH]; intros s i H; cbn [length] in H; [lia|]. cbn [var_run]. destruct i as [|i]; cbn [nth]; [reflexivity|].
  rewrite (IH _ i) by lia. reflexivity.
Qed.
Lemma vst_0 : forall a l, (0 < length l)%nat -> vst a l 0 = var_step a init_v (nth 0 l NaN).
Proof. intros a l H. unfold vst. destruct l; [cbn in H; lia|reflexivity]. Qed.
Lemma vst_S : forall a l i, (S i < length l)%nat -> vst a l (S i) = var_step a (vst a l i) (nth (S i) l NaN).
Proof. intros a l i H. unfold vst. rewrite (firstn_snoc l (S i)) by auto. rewrite fold_left_app. reflexivity. Qed.
(** squares of the weights: the weighted sum for (1-a)^2 *)
Definition sq_alpha (a : R) : R := 1 - (1 - a) * (1 - a).
Definition vinv (a : R) (l : list num) (i : nat) (s : vstate) : Prop :=
  match v_mean s with
  | None => v_cov s = 0 /\ v_sum s = 1 /\ v_sum2 s = 1 /\ v_old s = 1 /\ v_nobs s = 0%nat /\ wsum a (fun _ => 1) l i = 0 /\ (forall j x, (j <= i)%nat -> nth j l NaN <> Fin x)
  | Some m => (1 <= v_nobs s)%nat /\ v_sum s = wsum a (fun _ => 1) l i /\ v_old s = wsum a (fun _ => 1) l i /\ v_sum2 s = wsum (sq_alpha a) (fun _ => 1) l i
      /\ m * wsum a (fun _ => 1) l i = wsum a (fun x => x) l i
      /\ v_cov s * wsum a (fun _ => 1) l i = wsum a (fun x => x * x) l i - m * m * wsum a (fun _ => 1) l i
  end.
Lemma wsum_none : forall a f l i, (forall j x, (j <= i)%nat -> nth j l NaN <> Fin x) -> wsum a f l i = 0.
Proof.
  intros a f l i. induction i as [|i IH]; intros H; [rewrite wsum_0|rewrite wsum_S, IH by (intros j x Hj; apply H; lia)]; match goal with |- context [nth ?k l NaN] => destruct (nth k l NaN) as [r| | |] eqn:E; cbn [on_present]; try lra; exfalso; apply (H k r); [lia|auto] end.
Qed.
Lemma vst_inv : forall a l i, 0 <= a <= 1 -> (i < length l)%nat -> vinv a l i (vst a l i).
Proof.
  intros a l i Ha. induction i as [|i IH]; intros Hi.
  - rewrite vst_0 by auto. unfold init_v, var_step. cbn [v_mean].
    destruct (nth 0 l NaN) as [x| | |] eqn:E; cbn [present vinv v_mean v_cov v_sum v_sum2 v_old v_nobs]; rewrite ?wsum_0, ?E; cbn [on_present].
    + unfold vinv. cbn [v_mean v_cov v_sum v_sum2 v_old v_nobs]. rewrite ?wsum_0, ?E. cbn [on_present]. repeat split; try lra. lia.
    + unfold vinv. cbn [v_mean v_cov v_sum v_sum2 v_old v_nobs]. rewrite ?wsum_0, ?E. cbn [on_present]. repeat split; try lra; try lia. intros j x Hj. replace j with 0%nat by lia. rewrite E. discriminate.
    + unfold vinv. cbn [v_mean v_cov v_sum v_sum2 v_old v_nobs]. rewrite ?wsum_0, ?E. cbn [on_present]. repeat split; try lra; try lia. intros j x Hj. replace j with 0%nat by lia. rewrite E. discriminate.
    + unfold vinv. cbn [v_mean v_cov v_sum v_sum2 v_old v_nobs]. rewrite ?wsum_0, ?E. cbn [on_present]. repeat split; try lra; try lia. intros j x Hj. replace j with 0%nat by lia. rewrite E. discriminate.
  - rewrite vst_S by auto. specialize (IH ltac:(lia)). pose proof (wsum_nonneg a (fun _ => 1) l i Ha ltac:(intros; lra)) as W0.
    unfold vinv in IH. unfold var_step. destruct (v_mean (vst a l i)) as [m|] eqn:EM.
    + destruct IH as (I1 & I2 & I3 & I4 & I5 & I6). destruct (present (nth (S i) l NaN)) as [c|] eqn:E.
      * assert (E' : nth (S i) l NaN = Fin c) by (destruct (nth (S i) l NaN); cbn in E; congruence).
        unfold vinv. cbn [v_mean v_cov v_sum v_sum2 v_old v_nobs]. rewrite !wsum_S, E'. cbn [on_present]. rewrite I2, I3, I4.
        set (W := wsum a (fun _ => 1) l i) in *. assert (Q : 0 <= W * (1 - a)) by nra.
        replace (if reqb m c then m else (W * (1 - a) * m + 1 * c) / (W * (1 - a) + 1)) with ((W * (1 - a) * m + 1 * c) / (W * (1 - a) + 1)) by (unfold reqb; destruct (Req_EM_T m c) as [->|]; [field; lra|reflexivity]).
        split; [lia|]. split; [ring|]. split; [ring|]. split; [unfold sq_alpha; ring|]. split; [rewrite <- I5; field; lra|].
        assert (X : wsum a (fun x => x * x) l i = v_cov (vst a l i) * W + m * m * W) by lra. rewrite X. field. lra.
      * assert (E' : forall f, on_present f (nth (S i) l NaN) = 0) by (intros f; destruct (nth (S i) l NaN); cbn in *; congruence).
        unfold vinv. cbn [v_mean v_cov v_sum v_sum2 v_old v_nobs]. rewrite !wsum_S, !E', I2, I3, I4. split; [lia|]. split; [ring|]. split; [ring|]. split; [unfold sq_alpha; ring|]. split; [rewrite <- I5; ring|].
        rewrite !Rplus_0_r. rewrite <- Rmult_assoc. replace (v_cov (vst a l i) * (1 - a) * wsum a (fun _ => 1) l i) with ((1 - a) * (v_cov (vst a l i) * wsum a (fun _ => 1) l i)) by ring. rewrite I6. ring.
    + destruct IH as (I1 & I2 & I3 & I4 & I5 & I6 & I7). destruct (present (nth (S i) l NaN)) as [c|] eqn:E.
      * assert (E' : nth (S i) l NaN = Fin c) by (destruct (nth (S i) l NaN); cbn in E; congruence).
        unfold vinv. cbn [v_mean v_cov v_sum v_sum2 v_old v_nobs]. rewrite !wsum_S, E'. cbn [on_present]. rewrite !(wsum_none _ _ l i I7), I1, I2, I3, I4. repeat split; try lra. lia.
      * assert (E' : forall f, on_present f (nth (S i) l NaN) = 0) by (intros f; destruct (nth (S i) l NaN); cbn in *; congruence).
        unfold vinv. rewrite EM. rewrite !wsum_S, !E', I6. repeat split; auto; [ring|]. intros j x Hj. destruct (Nat.eq_dec j (S i)) as [->|]; [intros H; rewrite H in E; discriminate|apply I7; lia].
Qed.
