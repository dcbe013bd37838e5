(** Entropy inequalities for empirical distributions, and the model on real data. *)
From Coq Require Import Reals Lra Psatz String List Arith Bool Lia ZArith.
From Verif Require Import Base Num Sums Sim_Model Dist_Model Dist_Spec Dist_Proofs Info_Model Info_Spec.
Import ListNotations.
Open Scope R_scope.

(* ------------------------------------------------------------------ *)
(** ** entr *)

Lemma entr_eq : forall p, 0 <= p -> entr p = - (p * ln p).
Proof.
  intros p Hp. unfold entr. destruct (rltb 0 p) eqn:E; [reflexivity|]. apply rltb_false in E. replace p with 0 by lra. ring.
Qed.
Lemma entr_nonneg : forall p, 0 <= p <= 1 -> 0 <= entr p.
Proof.
  intros p Hp. unfold entr. destruct (rltb 0 p) eqn:E; [|lra]. apply rltb_true in E.
  assert (ln p <= 0) by (rewrite <- ln_1; destruct (Req_dec p 1) as [->|]; [lra|apply Rlt_le, ln_increasing; lra]). nra.
Qed.
Lemma entr_pos : forall p, 0 < p < 1 -> 0 < entr p.
Proof.
  intros p Hp. unfold entr. rewrite (proj2 (rltb_true 0 p)) by lra.
  assert (ln p < 0) by (rewrite <- ln_1; apply ln_increasing; lra). nra.
Qed.
Lemma entr_0 : entr 0 = 0.
Proof. unfold entr. rewrite (proj2 (rltb_false 0 0)) by lra. reflexivity. Qed.
Lemma entr_1 : entr 1 = 0.
Proof. rewrite entr_eq by lra. rewrite ln_1. ring. Qed.

Lemma ln_le_sub1 : forall t, 0 < t -> ln t <= t - 1.
Proof.
  intros t Ht. assert (H : 1 + (t - 1) <= exp (t - 1)) by apply exp_ineq1_le.
  rewrite <- (ln_exp (t - 1)). replace (1 + (t - 1)) with t in H by ring.
  destruct H as [H|H]; [apply Rlt_le, ln_increasing; auto|rewrite <- H; lra].
Qed.
(** pointwise bound behind the entropy inequalities *)
Lemma point3 : forall p a b c, 0 <= p -> p <= a -> p <= b -> a <= c -> b <= c ->
  p - a * b * / c <= p * ln p + p * ln c - p * ln a - p * ln b.
Proof.
  intros p a b c Hp Ha Hb Hac Hbc. destruct Hp as [Hp|<-].
  - assert (Hc : 0 < c) by lra.
    assert (L : ln (a * b * / c * / p) <= a * b * / c * / p - 1).
    { apply ln_le_sub1. repeat apply Rmult_lt_0_compat; try lra; apply Rinv_0_lt_compat; lra. }
    rewrite !ln_mult, !ln_Rinv in L; try lra; try (apply Rinv_0_lt_compat; lra); try (repeat apply Rmult_lt_0_compat; try lra; apply Rinv_0_lt_compat; lra).
    apply (Rmult_le_compat_l p) in L; [|lra]. replace (p * (a * b * / c * / p - 1)) with (a * b * / c - p) in L by (field; lra). lra.
  - assert (0 <= a * b * / c).
    { destruct (Req_dec a 0) as [->|Hne]; [lra|]. repeat apply Rmult_le_pos; try lra. apply Rlt_le, Rinv_0_lt_compat. lra. }
    lra.
Qed.
Lemma ln_mono : forall a b, 0 < a -> a <= b -> ln a <= ln b.
Proof. intros a b Ha [H|<-]; [apply Rlt_le, ln_increasing; auto|lra]. Qed.

(* ------------------------------------------------------------------ *)
(** ** three discrete variables on a finite sample *)

Section Sample.
  Variable A : Type.
  Variable T : list A.
  Variable b : nat.
  Hypothesis HT : (1 <= length T)%nat.
  Let n := INR (length T).

  Definition bounded (X : A -> nat) : Prop := forall t, In t T -> (X t < b)%nat.
  Definition freq (f : A -> bool) : R := INR (tally f T) / n.
  Definition P1 (X : A -> nat) (i : nat) : R := freq (fun t => Nat.eqb i (X t)).
  Definition P2 (X Y : A -> nat) (i j : nat) : R := freq (fun t => Nat.eqb i (X t) && Nat.eqb j (Y t)).
  Definition P3 (X Y Z : A -> nat) (i j k : nat) : R := freq (fun t => (Nat.eqb i (X t) && Nat.eqb j (Y t)) && Nat.eqb k (Z t)).
  Definition H1 (X : A -> nat) : R := sumn b (fun i => entr (P1 X i)).
  Definition H2 (X Y : A -> nat) : R := sumn b (fun i => sumn b (fun j => entr (P2 X Y i j))).
  Definition H3 (X Y Z : A -> nat) : R := sumn b (fun i => sumn b (fun j => sumn b (fun k => entr (P3 X Y Z i j k)))).

  Lemma n_pos : 0 < n.
  Proof. unfold n. apply lt_0_INR. lia. Qed.
  Lemma tally_le : forall (f : A -> bool) l, (tally f l <= length l)%nat.
  Proof. unfold tally. induction l as [|a l IH]; [apply le_n|]. cbn [filter length]. destruct (f a); cbn [length]; lia. Qed.
  Lemma freq_bounds : forall f, 0 <= freq f <= 1.
  Proof.
    intros f. pose proof n_pos as Hn. unfold freq. pose proof (tally_le f T) as H. apply le_INR in H. fold n in H.
    pose proof (pos_INR (tally f T)). split.
    - apply Rmult_le_pos; [auto|apply Rlt_le, Rinv_0_lt_compat; auto].
    - apply Rmult_le_reg_r with n; [auto|]. unfold Rdiv. rewrite Rmult_assoc, Rinv_l by lra. lra.
  Qed.
  Lemma freq_ext : forall f g, (forall t, f t = g t) -> freq f = freq g.
  Proof. intros f g H. unfold freq, tally. rewrite (filter_ext f g) by auto. reflexivity. Qed.
  Lemma freq_true : freq (fun _ => true) = 1.
  Proof.
    unfold freq, tally. replace (filter (fun _ => true) T) with T by (clear; induction T; cbn; congruence).
    apply Rinv_r. pose proof n_pos. unfold n in *. lra.
  Qed.
  (** marginal *)
  Lemma freq_marginal : forall f X, bounded X -> sumn b (fun i => freq (fun t => f t && Nat.eqb i (X t))) = freq f.
  Proof.
    intros f X HX. unfold freq, Rdiv. rewrite S_scal_r. f_equal. unfold bounded in HX. clear HT n. induction T as [|a l IH].
    - cbn. apply S_zero.
    - assert (E : forall i, INR (tally (fun t => f t && Nat.eqb i (X t)) (a :: l))
          = (if f a && Nat.eqb i (X a) then 1 else 0) + INR (tally (fun t => f t && Nat.eqb i (X t)) l)).
      { intros i. unfold tally. cbn [filter]. destruct (f a && Nat.eqb i (X a)); cbn [length]; rewrite ?S_INR; ring. }
      rewrite (S_ext _ _ _ (fun i _ => E i)), S_plus, IH by (intros t Ht; apply HX; right; auto).
      unfold tally at 2. cbn [filter]. destruct (f a) eqn:Ef.
      + rewrite (S_single b _ (X a)).
        * rewrite Nat.eqb_refl. cbn [andb length]. rewrite S_INR. unfold tally. ring.
        * apply HX. left. auto.
        * intros i _ Hne. rewrite (proj2 (Nat.eqb_neq i (X a)) Hne). reflexivity.
      + cbn [andb]. rewrite S_zero. unfold tally. ring.
  Qed.
  Lemma freq_mono : forall f g, (forall t, f t = true -> g t = true) -> freq f <= freq g.
  Proof.
    intros f g H. unfold freq. apply Rmult_le_compat_r; [apply Rlt_le, Rinv_0_lt_compat, n_pos|]. apply le_INR. unfold tally. clear HT n.
    induction T as [|a l IH]; [apply le_n|]. cbn [filter]. destruct (f a) eqn:E; [rewrite (H _ E); cbn [length]; lia|]. destruct (g a); cbn [length]; lia.
  Qed.

  Lemma P2_sym : forall X Y i j, P2 X Y i j = P2 Y X j i.
  Proof. intros. apply freq_ext. intros t. apply andb_comm. Qed.
  Lemma P2_sum : forall X Y i, bounded Y -> sumn b (fun j => P2 X Y i j) = P1 X i.
  Proof. intros. apply (freq_marginal (fun t => Nat.eqb i (X t))). auto. Qed.
  Lemma P1_sum : forall X, bounded X -> sumn b (P1 X) = 1.
  Proof. intros X HX. rewrite <- freq_true, <- (freq_marginal (fun _ => true) X HX). apply S_ext. intros. apply freq_ext. reflexivity. Qed.
  Lemma P3_sum3 : forall X Y Z i j, bounded Z -> sumn b (fun k => P3 X Y Z i j k) = P2 X Y i j.
  Proof. intros. apply (freq_marginal (fun t => Nat.eqb i (X t) && Nat.eqb j (Y t))). auto. Qed.
  Lemma P3_sum2 : forall X Y Z i k, bounded Y -> sumn b (fun j => P3 X Y Z i j k) = P2 X Z i k.
  Proof.
    intros X Y Z i k HY. unfold P2. rewrite <- (freq_marginal _ Y HY). apply S_ext. intros j _. apply freq_ext. intros t.
    destruct (Nat.eqb i (X t)), (Nat.eqb j (Y t)), (Nat.eqb k (Z t)); reflexivity.
  Qed.
  Lemma P3_sum1 : forall X Y Z j k, bounded X -> sumn b (fun i => P3 X Y Z i j k) = P2 Y Z j k.
  Proof.
    intros X Y Z j k HX. unfold P2. rewrite <- (freq_marginal _ X HX). apply S_ext. intros i _. apply freq_ext. intros t.
    destruct (Nat.eqb i (X t)), (Nat.eqb j (Y t)), (Nat.eqb k (Z t)); reflexivity.
  Qed.

  Lemma H2_sym : forall X Y, H2 X Y = H2 Y X.
  Proof. intros. unfold H2. rewrite S_swap. apply S_ext. intros i _. apply S_ext. intros j _. rewrite P2_sym. reflexivity. Qed.
  Lemma H1_nonneg : forall X, 0 <= H1 X.
  Proof. intros. apply S_nonneg. intros. apply entr_nonneg, freq_bounds. Qed.

  (** a marginal has no more entropy than the joint distribution *)
  Lemma entr_split : forall (p : nat -> R) q, (forall j, (j < b)%nat -> 0 <= p j) -> sumn b p = q -> 0 <= q -> entr q <= sumn b (fun j => entr (p j)).
  Proof.
    intros p q Hp Hq Hq0. rewrite entr_eq by auto.
    replace (- (q * ln q)) with (sumn b (fun j => - (p j * ln q))) by (rewrite S_opp, S_scal_r, Hq; reflexivity).
    apply S_le. intros j Hj. rewrite entr_eq by auto. destruct (Hp j Hj) as [Hpos|<-]; [|rewrite !Rmult_0_l; lra].
    assert (p j <= q) by (rewrite <- Hq; apply (S_ge_term b p j Hj); auto). assert (ln (p j) <= ln q) by (apply ln_mono; auto). nra.
  Qed.
  Lemma H1_le_H2 : forall X Y, bounded Y -> H1 X <= H2 X Y.
  Proof.
    intros X Y HY. unfold H1, H2. apply S_le. intros i _. apply entr_split; [intros; apply freq_bounds|apply P2_sum; auto|apply freq_bounds].
  Qed.
  Lemma H2_le_H3 : forall X Y Z, bounded Y -> H2 X Z <= H3 X Y Z.
  Proof.
    intros X Y Z HY. unfold H2, H3. apply S_le. intros i _. rewrite S_swap. apply S_le. intros k _.
    apply entr_split; [intros; apply freq_bounds|apply P3_sum2; auto|apply freq_bounds].
  Qed.

  Lemma P2_le_l : forall X Y i j, P2 X Y i j <= P1 X i.
  Proof. intros. apply freq_mono. intros t H. apply andb_prop in H. tauto. Qed.
  Lemma P2_le_r : forall X Y i j, P2 X Y i j <= P1 Y j.
  Proof. intros. apply freq_mono. intros t H. apply andb_prop in H. tauto. Qed.

  (** strong subadditivity *)
  Lemma H3_submodular : forall X Y Z, bounded X -> bounded Y -> bounded Z -> H3 X Y Z + H1 Y <= H2 X Y + H2 Y Z.
  Proof.
    intros X Y Z HX HY HZ.
    set (p := P3 X Y Z). set (a := P2 X Y). set (c := P2 Y Z). set (q := P1 Y).
    assert (E3 : H3 X Y Z = - sumn b (fun i => sumn b (fun j => sumn b (fun k => p i j k * ln (p i j k))))).
    { unfold H3. rewrite <- S_opp. apply S_ext; intros i _. rewrite <- S_opp. apply S_ext; intros j _. rewrite <- S_opp. apply S_ext; intros k _.
      apply entr_eq, freq_bounds. }
    assert (E2 : H2 X Y = - sumn b (fun i => sumn b (fun j => sumn b (fun k => p i j k * ln (a i j))))).
    { unfold H2. rewrite <- S_opp. apply S_ext; intros i _. rewrite <- S_opp. apply S_ext; intros j _. rewrite S_scal_r.
      unfold p. rewrite P3_sum3 by auto. apply entr_eq, freq_bounds. }
    assert (E2' : H2 Y Z = - sumn b (fun i => sumn b (fun j => sumn b (fun k => p i j k * ln (c j k))))).
    { unfold H2. rewrite (S_swap b b (fun i j => sumn b (fun k => p i j k * ln (c j k)))). rewrite <- S_opp. apply S_ext; intros j _.
      rewrite (S_swap b b (fun i k => p i j k * ln (c j k))). rewrite <- S_opp. apply S_ext; intros k _. rewrite S_scal_r.
      unfold p. rewrite P3_sum1 by auto. apply entr_eq, freq_bounds. }
    assert (E1 : H1 Y = - sumn b (fun i => sumn b (fun j => sumn b (fun k => p i j k * ln (q j))))).
    { unfold H1. rewrite (S_swap b b (fun i j => sumn b (fun k => p i j k * ln (q j)))). rewrite <- S_opp. apply S_ext; intros j _.
      rewrite (S_ext b (fun i => sumn b (fun k => p i j k * ln (q j))) (fun i => a i j * ln (q j))).
      - rewrite S_scal_r. rewrite (S_ext b (fun i => a i j) (fun i => P2 Y X j i)) by (intros; apply P2_sym). rewrite P2_sum by auto. apply entr_eq, freq_bounds.
      - intros i _. rewrite S_scal_r. unfold p. rewrite P3_sum3 by auto. reflexivity. }
    assert (M : sumn b (fun i => sumn b (fun j => sumn b (fun k => p i j k - a i j * c j k * / q j)))
             <= sumn b (fun i => sumn b (fun j => sumn b (fun k => p i j k * ln (p i j k) + p i j k * ln (q j) - p i j k * ln (a i j) - p i j k * ln (c j k))))).
    { apply S_le; intros i _. apply S_le; intros j _. apply S_le; intros k _. apply point3.
      - apply freq_bounds.
      - apply freq_mono. intros t H. apply andb_prop in H. tauto.
      - apply freq_mono. intros t H. apply andb_prop in H as [H H']. apply andb_prop in H as [_ H]. rewrite H, H'. reflexivity.
      - apply P2_le_r.
      - apply P2_le_l. }
    assert (Z1 : sumn b (fun i => sumn b (fun j => sumn b (fun k => p i j k - a i j * c j k * / q j))) = 0).
    { rewrite (S_swap b b (fun i j => sumn b (fun k => p i j k - a i j * c j k * / q j))).
      rewrite (S_ext b _ (fun _ => 0)); [apply S_zero|]. intros j _.
      rewrite (S_ext b _ (fun i => a i j - a i j * (q j * / q j))).
      - rewrite S_minus, S_scal_r. rewrite (S_ext b (fun i => a i j) (fun i => P2 Y X j i)) by (intros; apply P2_sym). rewrite P2_sum by auto. fold (q j).
        destruct (Req_dec (q j) 0) as [->|Hne]; [ring|field; auto].
      - intros i _. rewrite S_minus. unfold p. rewrite P3_sum3 by auto. fold (a i j). f_equal.
        rewrite (S_ext b _ (fun k => (a i j * / q j) * c j k)) by (intros; ring). rewrite S_scal. unfold c. rewrite P2_sum by auto. fold (q j). ring. }
    rewrite Z1 in M.
    assert (X1 : sumn b (fun i => sumn b (fun j => sumn b (fun k => p i j k * ln (p i j k) + p i j k * ln (q j) - p i j k * ln (a i j) - p i j k * ln (c j k))))
             = sumn b (fun i => sumn b (fun j => sumn b (fun k => p i j k * ln (p i j k)))) + sumn b (fun i => sumn b (fun j => sumn b (fun k => p i j k * ln (q j))))
               - sumn b (fun i => sumn b (fun j => sumn b (fun k => p i j k * ln (a i j)))) - sumn b (fun i => sumn b (fun j => sumn b (fun k => p i j k * ln (c j k))))).
    { rewrite <- S_plus, <- !S_minus. apply S_ext; intros i _. rewrite <- S_plus, <- !S_minus. apply S_ext; intros j _.
      rewrite <- S_plus, <- !S_minus. reflexivity. }
    rewrite X1 in M. lra.
  Qed.

  (** independence has the largest joint entropy *)
  Lemma H2_subadditive : forall X Y, bounded X -> bounded Y -> H2 X Y <= H1 X + H1 Y.
  Proof.
    intros X Y HX HY. set (p := P2 X Y).
    assert (E2 : H2 X Y = - sumn b (fun i => sumn b (fun j => p i j * ln (p i j)))).
    { unfold H2. rewrite <- S_opp. apply S_ext; intros i _. rewrite <- S_opp. apply S_ext; intros j _. apply entr_eq, freq_bounds. }
    assert (EX : H1 X = - sumn b (fun i => sumn b (fun j => p i j * ln (P1 X i)))).
    { unfold H1. rewrite <- S_opp. apply S_ext; intros i _. rewrite S_scal_r. unfold p. rewrite P2_sum by auto. apply entr_eq, freq_bounds. }
    assert (EY : H1 Y = - sumn b (fun i => sumn b (fun j => p i j * ln (P1 Y j)))).
    { unfold H1. rewrite (S_swap b b (fun i j => p i j * ln (P1 Y j))). rewrite <- S_opp. apply S_ext; intros j _. rewrite S_scal_r.
      rewrite (S_ext b (fun i => p i j) (fun i => P2 Y X j i)) by (intros; apply P2_sym). rewrite P2_sum by auto. apply entr_eq, freq_bounds. }
    assert (M : sumn b (fun i => sumn b (fun j => p i j - P1 X i * P1 Y j))
             <= sumn b (fun i => sumn b (fun j => p i j * ln (p i j) - p i j * ln (P1 X i) - p i j * ln (P1 Y j)))).
    { apply S_le; intros i _. apply S_le; intros j _.
      pose proof (point3 (p i j) (P1 X i) (P1 Y j) 1 ltac:(apply freq_bounds) ltac:(apply P2_le_l) ltac:(apply P2_le_r) ltac:(apply freq_bounds) ltac:(apply freq_bounds)) as Q.
      rewrite ln_1, Rinv_1 in Q. lra. }
    assert (Z1 : sumn b (fun i => sumn b (fun j => p i j - P1 X i * P1 Y j)) = 0).
    { rewrite (S_ext b _ (fun _ => 0)); [apply S_zero|]. intros i _. rewrite S_minus, S_scal. rewrite (P1_sum Y HY). unfold p. rewrite P2_sum by auto. ring. }
    rewrite Z1 in M.
    assert (X1 : sumn b (fun i => sumn b (fun j => p i j * ln (p i j) - p i j * ln (P1 X i) - p i j * ln (P1 Y j)))
       = sumn b (fun i => sumn b (fun j => p i j * ln (p i j))) - sumn b (fun i => sumn b (fun j => p i j * ln (P1 X i))) - sumn b (fun i => sumn b (fun j => p i j * ln (P1 Y j)))).
    { rewrite <- !S_minus. apply S_ext; intros i _. rewrite <- !S_minus. reflexivity. }
    rewrite X1 in M. lra.
  Qed.

  Lemma H2_self : forall X, bounded X -> H2 X X = H1 X.
  Proof.
    intros X HX. unfold H2, H1. apply S_ext. intros i Hi. rewrite (S_single b _ i Hi).
    - unfold P2, P1. f_equal. apply freq_ext. intros t. apply andb_diag.
    - intros j _ Hne. unfold P2. replace (freq (fun t => Nat.eqb i (X t) && Nat.eqb j (X t))) with 0; [apply entr_0|].
      unfold freq. replace (tally (fun t => Nat.eqb i (X t) && Nat.eqb j (X t)) T) with 0%nat; [cbn; unfold Rdiv; ring|].
      unfold tally. rewrite (filter_ext _ (fun _ => false)); [clear; induction T; cbn; auto|]. intros t.
      destruct (Nat.eqb_spec i (X t)), (Nat.eqb_spec j (X t)); auto. congruence.
  Qed.

  (** zero entropy means one value *)
  Lemma H1_pos : forall X s t, bounded X -> In s T -> In t T -> X s <> X t -> 0 < H1 X.
  Proof.
    intros X s t HX Hs Ht Hst.
    assert (Pos : forall u, In u T -> 0 < P1 X (X u)).
    { intros u Hu. unfold P1, freq. apply Rmult_lt_0_compat; [|apply Rinv_0_lt_compat, n_pos]. apply lt_0_INR. unfold tally.
      assert (In u (filter (fun v => Nat.eqb (X u) (X v)) T)) by (apply filter_In; split; [auto|apply Nat.eqb_refl]). destruct (filter _ T); [contradiction|cbn; lia]. }
    assert (Lt : P1 X (X s) < 1).
    { assert (P1 X (X s) + P1 X (X t) <= 1).
      { rewrite <- (P1_sum X HX). assert (E : sumn b (fun i => if Nat.eqb i (X s) then P1 X i else 0) = P1 X (X s)).
        { rewrite (S_single b _ (X s)); [rewrite Nat.eqb_refl; reflexivity|apply HX; auto|]. intros i _ Hne. rewrite (proj2 (Nat.eqb_neq _ _) Hne). reflexivity. }
        assert (E' : sumn b (fun i => if Nat.eqb i (X t) then P1 X i else 0) = P1 X (X t)).
        { rewrite (S_single b _ (X t)); [rewrite Nat.eqb_refl; reflexivity|apply HX; auto|]. intros i _ Hne. rewrite (proj2 (Nat.eqb_neq _ _) Hne). reflexivity. }
        rewrite <- E, <- E', <- S_plus. apply S_le. intros i _. pose proof (freq_bounds (fun v => Nat.eqb i (X v))) as B. fold (P1 X i) in B.
        destruct (Nat.eqb_spec i (X s)), (Nat.eqb_spec i (X t)); try lra. congruence. }
      pose proof (Pos t Ht). lra. }
    unfold H1. apply Rlt_le_trans with (entr (P1 X (X s))).
    - apply entr_pos. split; [apply Pos; auto|exact Lt].
    - apply (S_ge_term b (fun i => entr (P1 X i)) (X s)); [apply HX; auto|]. intros. apply entr_nonneg, freq_bounds.
  Qed.
  Lemma H1_const : forall X v, bounded X -> (forall t, In t T -> X t = v) -> H1 X = 0.
  Proof.
    intros X v HX Hv. assert (Hvb : (v < b)%nat).
    { destruct T as [|t l] eqn:E; [cbn in HT; lia|]. rewrite <- (Hv t) by (left; auto). apply HX. rewrite E. left. auto. }
    unfold H1. rewrite (S_single b _ v Hvb).
    - replace (P1 X v) with 1; [apply entr_1|]. unfold P1. rewrite <- freq_true. unfold freq, tally. do 3 f_equal.
      clear - Hv. induction T as [|a l IH]; [reflexivity|]. cbn [filter]. rewrite (Hv a) by (left; auto). rewrite Nat.eqb_refl. f_equal. apply IH. intros; apply Hv; right; auto.
    - intros i _ Hne. replace (P1 X i) with 0; [apply entr_0|]. unfold P1, freq. replace (tally (fun t => Nat.eqb i (X t)) T) with 0%nat; [cbn; unfold Rdiv; ring|].
      unfold tally. clear - Hv Hne. induction T as [|a l IH]; [reflexivity|]. cbn [filter]. rewrite (Hv a) by (left; auto). rewrite (proj2 (Nat.eqb_neq _ _) Hne).
      apply IH. intros; apply Hv; right; auto.
  Qed.
End Sample.

(* ------------------------------------------------------------------ *)
(** ** the histograms of the model as three such variables *)

Lemma Int_part_ge : forall r z, IZR z <= r -> (z <= Int_part r)%Z.
Proof.
  intros r z H. destruct (base_Int_part r) as [_ H2]. assert (Hlt : IZR z < IZR (Int_part r + 1)) by (rewrite plus_IZR; lra).
  apply lt_IZR in Hlt. lia.
Qed.
Lemma Int_part_lt : forall r z, r < IZR z -> (Int_part r < z)%Z.
Proof. intros r z H. destruct (base_Int_part r) as [H1 _]. apply lt_IZR. lra. Qed.
Lemma Int_part_IZR : forall z, Int_part (IZR z) = z.
Proof.
  intros z. assert (A := Int_part_ge (IZR z) z ltac:(lra)). assert (B : (Int_part (IZR z) < z + 1)%Z) by (apply Int_part_lt; rewrite plus_IZR; lra). lia.
Qed.

Lemma lmin_spec : forall l, l <> [] -> In (lmin l) l /\ forall v, In v l -> lmin l <= v.
Proof.
  intros l Hl. unfold lmin.
  assert (A : forall h t, fold_right Rmin h t = h \/ In (fold_right Rmin h t) t).
  { intros h t. induction t as [|a t IH]; [left; reflexivity|]. cbn [fold_right]. unfold Rmin at 1 3. destruct (Rle_dec a _); [right; left; reflexivity|]. destruct IH as [->|IH]; [left; reflexivity|right; right; auto]. }
  split.
  - destruct (A (hd 0 l) l) as [->|H]; [destruct l; [congruence|left; reflexivity]|auto].
  - generalize (hd 0 l). clear. intros h v. induction l as [|a l IH]; [intros []|]. intros [->|H]; cbn [fold_right]; [apply Rmin_l|].
    eapply Rle_trans; [apply Rmin_r|]. auto.
Qed.
Lemma lmax_spec : forall l, l <> [] -> In (lmax l) l /\ forall v, In v l -> v <= lmax l.
Proof.
  intros l Hl. unfold lmax.
  assert (A : forall h t, fold_right Rmax h t = h \/ In (fold_right Rmax h t) t).
  { intros h t. induction t as [|a t IH]; [left; reflexivity|]. cbn [fold_right]. unfold Rmax at 1 3. destruct (Rle_dec a _); [|right; left; reflexivity]. destruct IH as [->|IH]; [left; reflexivity|right; right; auto]. }
  split.
  - destruct (A (hd 0 l) l) as [->|H]; [destruct l; [congruence|left; reflexivity]|auto].
  - generalize (hd 0 l). clear. intros h v. induction l as [|a l IH]; [intros []|]. intros [->|H]; cbn [fold_right]; [apply Rmax_l|].
    eapply Rle_trans; [|apply Rmax_r]. auto.
Qed.
Lemma edges_lt : forall l, l <> [] -> fst (outer_edges l) < snd (outer_edges l).
Proof.
  intros l Hl. unfold outer_edges. destruct (reqb (lmin l) (lmax l)) eqn:E; cbn [fst snd].
  - apply reqb_true in E. lra.
  - apply reqb_false in E. destruct (lmin_spec l Hl) as [H _]. pose proof (proj2 (lmax_spec l Hl) _ H). lra.
Qed.
Lemma edges_in : forall l v, In v l -> fst (outer_edges l) <= v <= snd (outer_edges l).
Proof.
  intros l v Hv. assert (Hl : l <> []) by (intros ->; contradiction).
  pose proof (proj2 (lmin_spec l Hl) _ Hv). pose proof (proj2 (lmax_spec l Hl) _ Hv).
  unfold outer_edges. destruct (reqb (lmin l) (lmax l)); cbn [fst snd]; lra.
Qed.
Lemma bin_lt : forall b e v, (1 <= b)%nat -> (bin_of b e v < b)%nat.
Proof. intros b e v Hb. unfold bin_of. lia. Qed.

Definition lab (b : nat) (u : list R) (i : nat) : nat := bin_of b (outer_edges u) (nth i u 0).
Lemma map_nth_seq : forall (l : list R), map (fun i => nth i l 0) (seq 0 (length l)) = l.
Proof.
  intros l. apply nth_ext with (d := 0) (d' := 0); [rewrite map_length, seq_length; reflexivity|]. intros i Hi. rewrite map_length, seq_length in Hi.
  rewrite nth_indep with (d' := nth 0 l 0) by (rewrite map_length, seq_length; lia). rewrite (map_nth (fun i => nth i l 0)), seq_nth by auto. reflexivity.
Qed.
Lemma bins_of_lab : forall b u, bins_of b u = map (lab b u) (seq 0 (length u)).
Proof.
  intros b u. unfold bins_of, lab. rewrite <- (map_map (fun i => nth i u 0) (bin_of b (outer_edges u))), map_nth_seq. reflexivity.
Qed.
Lemma tally_map : forall A B (g : A -> B) f l, tally f (map g l) = tally (fun a => f (g a)) l.
Proof. intros. unfold tally. induction l as [|a l IH]; [reflexivity|]. cbn [map filter]. destruct (f (g a)); cbn [length]; rewrite IH; reflexivity. Qed.
Lemma combine_maps : forall A B C (f : A -> B) (g : A -> C) l, combine (map f l) (map g l) = map (fun t => (f t, g t)) l.
Proof. intros. induction l as [|a l IH]; [reflexivity|]. cbn [map combine]. rewrite IH. reflexivity. Qed.
Lemma rsum_flat_map : forall A B (f : A -> list B) (g : B -> R) l, rsum (map g (flat_map f l)) = rsum (map (fun a => rsum (map g (f a))) l).
Proof. intros. induction l as [|a l IH]; [reflexivity|]. cbn [flat_map map]. rewrite map_app, rsum_app, IH. reflexivity. Qed.

Lemma entropy_of_counts_eq : forall (h : list nat) N, 0 < N -> rsum (map INR h) = N ->
  entropy_of_counts h = Fin (rsum (map (fun c => entr (INR c / N)) h)).
Proof.
  intros h N HN Hs. unfold entropy_of_counts. rewrite (proj2 (reqb_false _ 0)) by lra. f_equal. unfold entropy, normalise. rewrite Hs.
  assert (E : rsum (map (fun c => INR c / N) h) = 1).
  { unfold Rdiv. rewrite (rsum_ext _ _ (fun c => / N * INR c)) by (intros; ring). rewrite rsum_scal, Hs. field. lra. }
  rewrite E, map_map. apply rsum_ext. intros c _. f_equal. field. lra.
Qed.

Section Model.
  Variable b : nat.
  Hypothesis Hb : (1 <= b)%nat.
  Variable n : nat.
  Hypothesis Hn : (1 <= n)%nat.
  Let T := seq 0 n.
  Lemma T_len : (1 <= length T)%nat.
  Proof. unfold T. rewrite seq_length. auto. Qed.
  Lemma lab_bounded : forall u, bounded nat T b (lab b u).
  Proof. intros u t _. apply bin_lt. auto. Qed.
  Lemma hist_eq : forall u, length u = n -> hist b u = map (fun i => tally (fun t => Nat.eqb i (lab b u t)) T) (seq 0 b).
  Proof. intros u Hu. unfold hist. apply map_ext. intros i. rewrite bins_of_lab, Hu, tally_map. reflexivity. Qed.
  Lemma hist_total : forall u, length u = n -> rsum (map INR (hist b u)) = INR n.
  Proof.
    intros u Hu. rewrite hist_eq, map_map by auto. pose proof (P1_sum nat T b T_len (lab b u) (lab_bounded u)) as P.
    unfold sumn, P1, freq in P. rewrite (rsum_ext _ _ (fun i => / INR (length T) * INR (tally (fun t => Nat.eqb i (lab b u t)) T))) in P by (intros; unfold Rdiv; ring).
    rewrite rsum_scal in P. unfold T in P at 1. rewrite seq_length in P. assert (Hp : 0 < INR n) by (apply lt_0_INR; lia).
    apply (Rmult_eq_compat_l (INR n)) in P. rewrite <- Rmult_assoc, Rinv_r, Rmult_1_l, Rmult_1_r in P by lra. exact P.
  Qed.
  Lemma hist_entropy : forall u, length u = n -> entropy_of_counts (hist b u) = Fin (H1 nat T b (lab b u)).
  Proof.
    intros u Hu. rewrite (entropy_of_counts_eq _ (INR n)) by (try apply hist_total; auto; apply lt_0_INR; lia).
    rewrite hist_eq, map_map by auto. unfold H1, sumn, P1, freq, T. rewrite seq_length. reflexivity.
  Qed.
  Lemma hist2d_eq : forall u v, length u = n -> length v = n ->
    hist2d b u v = flat_map (fun i => map (fun j => tally (fun t => Nat.eqb i (lab b u t) && Nat.eqb j (lab b v t)) T) (seq 0 b)) (seq 0 b).
  Proof.
    intros u v Hu Hv. unfold hist2d. rewrite !flat_map_concat_map. f_equal. apply map_ext. intros i. apply map_ext. intros j.
    rewrite !bins_of_lab, Hu, Hv, combine_maps, tally_map. reflexivity.
  Qed.
  Lemma hist2d_total : forall u v, length u = n -> length v = n -> rsum (map INR (hist2d b u v)) = INR n.
  Proof.
    intros u v Hu Hv. rewrite hist2d_eq, rsum_flat_map by auto. rewrite <- (hist_total u Hu), hist_eq, map_map by auto.
    apply rsum_ext. intros i _. rewrite map_map. pose proof (P2_sum nat T b (lab b u) (lab b v) i (lab_bounded v)) as P.
    unfold sumn, P2, P1, freq in P. rewrite (rsum_ext _ _ (fun j => / INR (length T) * INR (tally (fun t => Nat.eqb i (lab b u t) && Nat.eqb j (lab b v t)) T))) in P by (intros; unfold Rdiv; ring).
    rewrite rsum_scal in P. assert (Hp : 0 < INR (length T)) by (apply lt_0_INR; pose proof T_len; lia).
    apply (Rmult_eq_compat_l (INR (length T))) in P. unfold Rdiv in P. rewrite <- Rmult_assoc, Rinv_r, Rmult_1_l in P by lra. rewrite P. field. lra.
  Qed.
  Lemma hist2d_entropy : forall u v, length u = n -> length v = n -> entropy_of_counts (hist2d b u v) = Fin (H2 nat T b (lab b u) (lab b v)).
  Proof.
    intros u v Hu Hv. rewrite (entropy_of_counts_eq _ (INR n)) by (try apply hist2d_total; auto; apply lt_0_INR; lia).
    rewrite hist2d_eq, rsum_flat_map by auto. unfold H2, sumn, P2, freq, T. rewrite seq_length. f_equal. apply rsum_ext. intros i _. rewrite map_map. reflexivity.
  Qed.

  (** vectors which take two values fall into two bins when there are two bins *)
  Lemma H1_varies : forall u, length u = n -> (2 <= b)%nat -> varies u -> 0 < H1 nat T b (lab b u).
  Proof.
    intros u Hu Hb2 (a & c & Ha & Hc & Hac). assert (Hne : u <> []) by (intros ->; contradiction).
    destruct (lmin_spec u Hne) as [Im Lm]. destruct (lmax_spec u Hne) as [IM LM].
    assert (Hlt : lmin u < lmax u).
    { pose proof (Lm _ Ha). pose proof (Lm _ Hc). pose proof (LM _ Ha). pose proof (LM _ Hc). destruct (Rtotal_order a c) as [|[|]]; lra. }
    apply In_nth with (d := 0) in Im as (s & Hs & Es). apply In_nth with (d := 0) in IM as (t & Ht & Et).
    assert (Hpos : 0 < INR b) by (apply lt_0_INR; lia).
    apply (H1_pos nat T b T_len (lab b u) s t (lab_bounded u)); [unfold T; apply in_seq; lia..|].
    unfold lab, bin_of, outer_edges. rewrite (proj2 (reqb_false (lmin u) (lmax u))) by lra. cbn [fst snd]. rewrite Es, Et.
    replace ((lmin u - lmin u) * INR b / (lmax u - lmin u)) with (IZR 0) by (field; lra).
    replace ((lmax u - lmin u) * INR b / (lmax u - lmin u)) with (IZR (Z.of_nat b)) by (rewrite <- INR_IZR_INZ; field; lra).
    rewrite !Int_part_IZR, Nat2Z.id. cbn [Z.to_nat]. lia.
  Qed.
  Lemma H1_constant : forall u c, length u = n -> (forall v, In v u -> v = c) -> H1 nat T b (lab b u) = 0.
  Proof.
    intros u c Hu Hc. apply (H1_const nat T b T_len _ (bin_of b (outer_edges u) c) (lab_bounded u)).
    intros t Ht. unfold T in Ht. apply in_seq in Ht. unfold lab. rewrite (Hc (nth t u 0)) by (apply nth_In; lia). reflexivity.
  Qed.
  Lemma H1_one_bin : forall u, b = 1%nat -> H1 nat T b (lab b u) = 0.
  Proof.
    intros u Hb1. apply (H1_const nat T b T_len _ 0%nat (lab_bounded u)). intros t _. pose proof (bin_lt b (outer_edges u) (nth t u 0) Hb). unfold lab. lia.
  Qed.
End Model.

Lemma finite_values_map : forall u, finite_values (map Fin u) = Some u.
Proof. induction u as [|a u IH]; [reflexivity|]. cbn [map finite_values]. rewrite IH. reflexivity. Qed.
Lemma checked_hist_real : forall u bins, (1 <= bins)%Z -> checked_hist (map Fin u) bins = Ok u.
Proof. intros u bins H. unfold checked_hist. rewrite (proj2 (Z.ltb_ge bins 1)) by lia. rewrite finite_values_map. reflexivity. Qed.
Lemma entropies_real : forall u v bins, (1 <= bins)%Z -> length u = length v -> (1 <= length u)%nat ->
  entropies (map Fin u) (map Fin v) bins
  = Ok (Fin (H1 nat (seq 0 (length u)) (Z.to_nat bins) (lab (Z.to_nat bins) u)),
        Fin (H1 nat (seq 0 (length u)) (Z.to_nat bins) (lab (Z.to_nat bins) v)),
        Fin (H2 nat (seq 0 (length u)) (Z.to_nat bins) (lab (Z.to_nat bins) u) (lab (Z.to_nat bins) v))).
Proof.
  intros u v bins Hb Hl Hn. unfold entropies. rewrite !map_length, Hl, Nat.eqb_refl. cbn [negb]. rewrite <- Hl, !checked_hist_real by auto. cbn [bind].
  cbv zeta. rewrite !(hist_entropy (Z.to_nat bins) ltac:(lia) (length u) Hn), (hist2d_entropy (Z.to_nat bins) ltac:(lia) (length u) Hn) by auto. reflexivity.
Qed.

(* ------------------------------------------------------------------ *)
(** ** bins are the cells of the specification *)

Lemma cell_scale : forall b lo hi v, (1 <= b)%nat -> lo < hi ->
  let y := (v - lo) * INR b / (hi - lo) in
  0 < INR b /\ v = lo + y * ((hi - lo) / INR b) /\ 0 < (hi - lo) / INR b.
Proof.
  intros b lo hi v Hb Hlt y. assert (0 < INR b) by (apply lt_0_INR; lia). split; [auto|]. split.
  - unfold y. field. split; lra.
  - apply Rmult_lt_0_compat; [lra|]. apply Rinv_0_lt_compat. auto.
Qed.
Lemma bin_of_in_cell : forall b lo hi v, (1 <= b)%nat -> lo < hi -> lo <= v <= hi -> in_cell b lo hi v (bin_of b (lo, hi) v).
Proof.
  intros b lo hi v Hb Hlt Hv. destruct (cell_scale b lo hi v Hb Hlt) as (Hp & Ev & Hw). unfold bin_of. cbn [fst snd].
  set (y := (v - lo) * INR b / (hi - lo)) in *. set (w := (hi - lo) / INR b) in *.
  assert (Hy : 0 <= y) by (unfold y; apply Rmult_le_pos; [apply Rmult_le_pos; lra|apply Rlt_le, Rinv_0_lt_compat; lra]).
  assert (Hz : (0 <= Int_part y)%Z) by (apply Int_part_ge; auto). destruct (base_Int_part y) as [B1 B2].
  assert (HI : INR (Z.to_nat (Int_part y)) = IZR (Int_part y)) by (rewrite INR_IZR_INZ, Z2Nat.id by auto; reflexivity).
  unfold in_cell. split; [lia|]. fold w. destruct (le_lt_dec (Z.to_nat (Int_part y)) (b - 1)) as [H|H].
  - rewrite Nat.min_l by auto. rewrite plus_INR, HI. cbn [INR]. split; [rewrite Ev; nra|left; rewrite Ev; nra].
  - rewrite Nat.min_r by lia. split; [|right; split; [reflexivity|lra]].
    assert (INR (b - 1) <= y) by (apply Rle_trans with (IZR (Int_part y)); [rewrite <- HI; apply le_INR; lia|lra]). rewrite Ev. nra.
Qed.
Lemma in_cell_bin : forall b lo hi v i, lo < hi -> in_cell b lo hi v i -> bin_of b (lo, hi) v = i.
Proof.
  intros b lo hi v i Hlt (Hi & L & U). destruct (cell_scale b lo hi v ltac:(lia) Hlt) as (Hp & Ev & Hw). unfold bin_of. cbn [fst snd].
  set (y := (v - lo) * INR b / (hi - lo)) in *. set (w := (hi - lo) / INR b) in *.
  assert (Hy : INR i <= y) by (rewrite Ev in L; apply Rmult_le_reg_r with w; lra).
  assert (Z1 : (Z.of_nat i <= Int_part y)%Z) by (apply Int_part_ge; rewrite <- INR_IZR_INZ; auto).
  destruct U as [U|[-> U]].
  - assert (Z2 : (Int_part y < Z.of_nat (i + 1))%Z) by (apply Int_part_lt; rewrite <- INR_IZR_INZ; rewrite Ev in U; apply Rmult_lt_reg_r with w; lra). lia.
  - lia.
Qed.
Lemma outer_edges_spec : forall l lo hi, least lo l -> greatest hi l ->
  outer_edges l = if reqb lo hi then (lo - 1 / 2, hi + 1 / 2) else (lo, hi).
Proof.
  intros l lo hi [I1 L1] [I2 L2]. assert (Hl : l <> []) by (intros ->; contradiction).
  destruct (lmin_spec l Hl) as [A1 B1]. destruct (lmax_spec l Hl) as [A2 B2].
  assert (E1 : lmin l = lo) by (apply Rle_antisym; auto). assert (E2 : lmax l = hi) by (apply Rle_antisym; auto).
  unfold outer_edges. rewrite E1, E2. reflexivity.
Qed.
Lemma bins_of_discretises : forall b l, (1 <= b)%nat -> discretises b l (bins_of b l).
Proof.
  intros b l Hb. split; [unfold bins_of; apply map_length|]. intros lo hi Hlo Hhi k Hk.
  assert (Hin : In (nth k l 0) l) by (apply nth_In; auto).
  assert (E : nth k (bins_of b l) 0%nat = bin_of b (outer_edges l) (nth k l 0)).
  { unfold bins_of. rewrite nth_indep with (d' := bin_of b (outer_edges l) 0) by (rewrite map_length; auto). apply map_nth. }
  rewrite E, (outer_edges_spec l lo hi Hlo Hhi). destruct Hlo as [_ Llo]. destruct Hhi as [_ Lhi]. specialize (Llo _ Hin). specialize (Lhi _ Hin). split; intros H.
  - rewrite (proj2 (reqb_false lo hi)) by lra. apply bin_of_in_cell; auto.
  - rewrite (proj2 (reqb_true lo hi)) by lra. apply bin_of_in_cell; auto; lra.
Qed.
Lemma discretises_unique : forall b l labels, discretises b l labels -> labels = bins_of b l.
Proof.
  intros b l labels [Hl H]. apply nth_ext with (d := 0%nat) (d' := 0%nat); [unfold bins_of; rewrite map_length; auto|]. intros k Hk. rewrite Hl in Hk.
  assert (Hne : l <> []) by (intros ->; cbn in Hk; lia).
  destruct (H (lmin l) (lmax l) (lmin_spec l Hne) (lmax_spec l Hne) k Hk) as [A B].
  assert (E : nth k (bins_of b l) 0%nat = bin_of b (outer_edges l) (nth k l 0)).
  { unfold bins_of. rewrite nth_indep with (d' := bin_of b (outer_edges l) 0) by (rewrite map_length; auto). apply map_nth. }
  rewrite E. symmetry. unfold outer_edges. destruct (reqb (lmin l) (lmax l)) eqn:Eq.
  - apply reqb_true in Eq. apply in_cell_bin; [lra|]. apply B. auto.
  - apply reqb_false in Eq. pose proof (proj2 (lmax_spec l Hne) _ (proj1 (lmin_spec l Hne))). apply in_cell_bin; [lra|]. apply A. lra.
Qed.

Lemma count_tally : forall (l : list nat) i, count_occ Nat.eq_dec l i = tally (Nat.eqb i) l.
Proof.
  intros l i. unfold tally. induction l as [|a l IH]; [reflexivity|]. cbn [count_occ filter]. destruct (Nat.eq_dec a i) as [->|Hne].
  - rewrite Nat.eqb_refl. cbn [length]. congruence.
  - rewrite (proj2 (Nat.eqb_neq i a)) by auto. auto.
Qed.
Lemma count_tally2 : forall (l : list (nat * nat)) i j, count_occ pair_dec l (i, j) = tally (fun p => Nat.eqb i (fst p) && Nat.eqb j (snd p)) l.
Proof.
  intros l i j. unfold tally. induction l as [|[a c] l IH]; [reflexivity|]. cbn [count_occ filter fst snd]. destruct (pair_dec (a, c) (i, j)) as [E|Hne].
  - injection E as -> ->. rewrite !Nat.eqb_refl. cbn [andb length]. congruence.
  - destruct (Nat.eqb_spec i a), (Nat.eqb_spec j c); subst; cbn [andb]; auto. congruence.
Qed.
Lemma H1_shannon : forall b u, H1 nat (seq 0 (length u)) b (lab b u) = entropy_1 b (bins_of b u).
Proof.
  intros b u. unfold H1, entropy_1, shannon, sumn. rewrite map_map. apply rsum_ext. intros i _. unfold P1, freq, share.
  rewrite count_tally, bins_of_lab, tally_map, map_length. apply entr_eq.
  destruct (seq 0 (length u)) eqn:E; [cbn; unfold Rdiv; rewrite Rmult_0_l; lra|].
  rewrite <- E. apply Rmult_le_pos; [apply pos_INR|]. apply Rlt_le, Rinv_0_lt_compat, lt_0_INR. rewrite E. cbn. lia.
Qed.
Lemma H2_shannon : forall b u v, length u = length v -> H2 nat (seq 0 (length u)) b (lab b u) (lab b v) = entropy_2 b (bins_of b u) (bins_of b v).
Proof.
  intros b u v Hl. unfold H2, entropy_2, shannon, sumn. rewrite map_map.
  assert (LP : forall A B (l : list A) (l' : list B), list_prod l l' = flat_map (fun a => map (pair a) l') l).
  { intros A B l l'. induction l as [|a l IH]; [reflexivity|]. cbn [list_prod flat_map]. rewrite IH. reflexivity. }
  rewrite LP, rsum_flat_map. apply rsum_ext. intros i _. rewrite map_map. apply rsum_ext. intros j _. unfold P2, freq, share.
  rewrite count_tally2, !bins_of_lab, <- Hl, combine_maps, tally_map, map_length. apply entr_eq.
  destruct (seq 0 (length u)) eqn:E; [cbn; unfold Rdiv; rewrite Rmult_0_l; lra|].
  rewrite <- E. apply Rmult_le_pos; [apply pos_INR|]. apply Rlt_le, Rinv_0_lt_compat, lt_0_INR. rewrite E. cbn. lia.
Qed.

(** bins do not see the origin and the unit of the data *)
Lemma bins_of_affine : forall b k c l, 0 < k -> varies l -> bins_of b (map (fun v => k * v + c) l) = bins_of b l.
Proof.
  intros b k c l Hk (a & a' & Ha & Ha' & Hne). assert (Hl : l <> []) by (intros ->; contradiction).
  destruct (lmin_spec l Hl) as [Im Lm]. destruct (lmax_spec l Hl) as [IM LM].
  assert (Hlt : lmin l < lmax l).
  { pose proof (Lm _ Ha). pose proof (Lm _ Ha'). pose proof (LM _ Ha). pose proof (LM _ Ha'). destruct (Rtotal_order a a') as [|[|]]; lra. }
  assert (E : outer_edges (map (fun v => k * v + c) l) = (k * lmin l + c, k * lmax l + c)).
  { rewrite (outer_edges_spec _ (k * lmin l + c) (k * lmax l + c)).
    - rewrite (proj2 (reqb_false (k * lmin l + c) (k * lmax l + c))) by nra. reflexivity.
    - split; [apply (in_map (fun v => k * v + c)); auto|]. intros v Hv. apply in_map_iff in Hv as (w & <- & Hw). specialize (Lm _ Hw). nra.
    - split; [apply (in_map (fun v => k * v + c)); auto|]. intros v Hv. apply in_map_iff in Hv as (w & <- & Hw). specialize (LM _ Hw). nra. }
  unfold bins_of. rewrite E, map_map. apply map_ext. intros v. unfold bin_of, outer_edges. rewrite (proj2 (reqb_false (lmin l) (lmax l))) by lra. cbn [fst snd].
  replace ((k * v + c - (k * lmin l + c)) * INR b / (k * lmax l + c - (k * lmin l + c))) with ((v - lmin l) * INR b / (lmax l - lmin l)); [reflexivity|].
  field. split; [apply Rgt_not_eq; nra|lra].
Qed.
Lemma bins_of_constant : forall b c l, (1 <= b)%nat -> (forall v, In v l -> v = c) -> bins_of b l = map (fun _ => (b / 2)%nat) l.
Proof.
  intros b c l Hb Hc. destruct l as [|a l]; [reflexivity|]. set (L := a :: l) in *. assert (HL : L <> []) by discriminate.
  assert (E : outer_edges L = (c - 1 / 2, c + 1 / 2)).
  { rewrite (outer_edges_spec L c c); [rewrite (proj2 (reqb_true c c)); reflexivity|..].
    - split; [rewrite <- (Hc a); left; reflexivity|]. intros v Hv. rewrite (Hc v Hv). lra.
    - split; [rewrite <- (Hc a); left; reflexivity|]. intros v Hv. rewrite (Hc v Hv). lra. }
  unfold bins_of. rewrite E. apply map_ext_in. intros v Hv. rewrite (Hc v Hv). unfold bin_of. cbn [fst snd].
  replace ((c - (c - 1 / 2)) * INR b / (c + 1 / 2 - (c - 1 / 2))) with (INR b / 2) by (field; lra).
  assert (D : Int_part (INR b / 2) = Z.of_nat (b / 2)).
  { pose proof (Nat.div_mod b 2 ltac:(lia)) as DM. pose proof (Nat.mod_upper_bound b 2 ltac:(lia)) as MB.
    set (q := (b / 2)%nat) in *. set (r := (b mod 2)%nat) in *. assert (EI : INR b = 2 * INR q + INR r) by (rewrite DM, plus_INR, mult_INR; cbn [INR]; ring).
    assert (Hr : 0 <= INR r <= 1) by (split; [apply pos_INR|change 1 with (INR 1); apply le_INR; lia]).
    assert ((Z.of_nat q <= Int_part (INR b / 2))%Z) by (apply Int_part_ge; rewrite <- INR_IZR_INZ, EI; lra).
    assert ((Int_part (INR b / 2) < Z.of_nat q + 1)%Z) by (apply Int_part_lt; rewrite plus_IZR, <- INR_IZR_INZ, EI; lra). lia. }
  rewrite D, Nat2Z.id. pose proof (Nat.div_lt b 2 ltac:(lia) ltac:(lia)). set (q := (b / 2)%nat) in *. lia.
Qed.
