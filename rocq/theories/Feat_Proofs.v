(** Lemmas on the series operations. *)
From Coq Require Import Reals Lra Psatz ZArith List Arith Bool Lia.
From Verif Require Import Base Num Sums Feat_Ops Feat_Spec.
Import ListNotations.
Open Scope R_scope.

(** ** positions *)
Lemma nth_seq_map' : forall n i (f : nat -> num) d, (i < n)%nat -> nth i (map f (seq 0 n)) d = f i.
Proof. intros n i f d H. rewrite (nth_indep _ d (f 0%nat)) by (rewrite map_length, seq_length; auto). rewrite map_nth, seq_nth by auto. reflexivity. Qed.
Lemma nth_first : forall (l : list num) k i d, (i < k)%nat -> nth i (firstn k l) d = nth i l d.
Proof. intros l. induction l as [|x l IH]; intros [|k] i d H; try lia; cbn [firstn]; destruct i; cbn [nth]; auto; apply IH; lia. Qed.
Lemma nth_map_nan : forall f (l : list num) i, f NaN = NaN -> nth i (map f l) NaN = f (nth i l NaN).
Proof. intros f l i H. rewrite <- H at 1. apply map_nth. Qed.
Lemma nth_lift2 : forall f xs ys i, f NaN NaN = NaN -> nth i (lift2 f xs ys) NaN = f (nth i xs NaN) (nth i ys NaN).
Proof.
  intros f xs ys i H. unfold lift2. destruct (Nat.lt_ge_cases i (Nat.max (length xs) (length ys))) as [Hi|Hi].
  - rewrite nth_seq_map' by auto. reflexivity.
  - rewrite !nth_overflow by (rewrite ?map_length, ?seq_length; lia). auto.
Qed.
Lemma len_lift2 : forall f xs ys, length (lift2 f xs ys) = Nat.max (length xs) (length ys).
Proof. intros. unfold lift2. rewrite map_length, seq_length. reflexivity. Qed.
Lemma len_shift : forall p l, length (shift p l) = length l.
Proof. intros. unfold shift. rewrite map_length, seq_length. reflexivity. Qed.
Lemma nth_shift1 : forall l i, nth i (shift 1 l) NaN = match i with O => NaN | S j => if Nat.ltb i (length l) then nth j l NaN else NaN end.
Proof.
  intros l i. unfold shift. destruct (Nat.lt_ge_cases i (length l)) as [Hi|Hi].
  - rewrite nth_seq_map' by auto. destruct i as [|j]; [reflexivity|]. rewrite (proj2 (Nat.ltb_lt _ _) Hi). rewrite (proj2 (Z.ltb_ge _ _)) by lia. f_equal. lia.
  - rewrite nth_overflow by (rewrite map_length, seq_length; auto). destruct i as [|j]; [reflexivity|]. rewrite (proj2 (Nat.ltb_ge _ _) Hi). reflexivity.
Qed.
Lemma len_diff : forall p l, length (diff p l) = length l.
Proof. intros. unfold diff. rewrite len_lift2, len_shift. lia. Qed.
Lemma nsub_nan_r : forall x, nsub x NaN = NaN.
Proof. destruct x; reflexivity. Qed.
Lemma nth_diff1 : forall l i, nth i (diff 1 l) NaN = match i with O => NaN | S j => nsub (nth i l NaN) (nth j l NaN) end.
Proof.
  intros l i. unfold diff. rewrite nth_lift2 by reflexivity. rewrite nth_shift1. destruct i as [|j]; [apply nsub_nan_r|].
  destruct (Nat.ltb_spec (S j) (length l)); [reflexivity|]. rewrite (nth_overflow l) by lia. reflexivity.
Qed.
Lemma list_ext : forall (l l' : list num), length l = length l' -> (forall i, (i < length l)%nat -> nth i l NaN = nth i l' NaN) -> l = l'.
Proof. intros l l' HL H. apply (nth_ext l l' NaN NaN HL). auto. Qed.

(** ** prefix-compatible operations *)
Definition pref1 (F : list num -> list num) : Prop := forall l, length (F l) = length l /\ forall k, F (firstn k l) = firstn k (F l).
Lemma pref_at : forall (g : list num -> nat -> num), (forall l k i, (i < k)%nat -> (i < length l)%nat -> g (firstn k l) i = g l i) ->
  pref1 (fun l => map (g l) (seq 0 (length l))).
Proof.
  intros g H l. split; [rewrite map_length, seq_length; auto|]. intros k. apply list_ext.
  - rewrite map_length, seq_length, !firstn_length, map_length, seq_length. reflexivity.
  - rewrite map_length, seq_length, firstn_length. intros i Hi. rewrite nth_seq_map' by (rewrite ?firstn_length; lia). rewrite nth_first by lia. rewrite nth_seq_map' by lia. apply H; lia.
Qed.
Lemma pref_map : forall f, pref1 (map f).
Proof. intros f l. split; [apply map_length|]. intros k. symmetry. apply firstn_map. Qed.
Lemma pref_comp : forall F G, pref1 F -> pref1 G -> pref1 (fun l => F (G l)).
Proof. intros F G HF HG l. destruct (HG l) as [L1 P1]. destruct (HF (G l)) as [L2 P2]. split; [congruence|]. intros k. rewrite P1. apply P2. Qed.
Lemma pref_id : pref1 (fun l => l).
Proof. intros l. split; auto. Qed.
Lemma firstn_lift2 : forall f xs ys k, lift2 f (firstn k xs) (firstn k ys) = firstn k (lift2 f xs ys).
Proof.
  intros f xs ys k. apply list_ext.
  - rewrite firstn_length, !len_lift2, !firstn_length. lia.
  - intros i Hi. rewrite len_lift2, !firstn_length in Hi. rewrite nth_first by lia. unfold lift2. rewrite !nth_seq_map' by (rewrite ?firstn_length; lia). rewrite !nth_first by lia. reflexivity.
Qed.
Lemma pref_lift2 : forall f F G, pref1 F -> pref1 G -> pref1 (fun l => lift2 f (F l) (G l)).
Proof.
  intros f F G HF HG l. destruct (HF l) as [L1 P1], (HG l) as [L2 P2]. split; [rewrite len_lift2; lia|]. intros k. rewrite P1, P2. apply firstn_lift2.
Qed.
Lemma pref_shift : forall p, (0 <= p)%Z -> pref1 (shift p).
Proof.
  intros p Hp. unfold shift. apply (pref_at (fun l i => if (Z.of_nat i <? p)%Z then NaN else nth (Z.to_nat (Z.of_nat i - p)) l NaN)).
  intros l k i Hi Hl. destruct (Z.ltb_spec (Z.of_nat i) p); [reflexivity|]. apply nth_first. lia.
Qed.
Lemma pref_diff : forall p, (0 <= p)%Z -> pref1 (diff p).
Proof. intros p Hp. unfold diff. apply pref_lift2; [apply pref_id|apply pref_shift; auto]. Qed.
Lemma firstn_firstn' : forall (l : list num) i k, (i <= k)%nat -> firstn i (firstn k l) = firstn i l.
Proof. intros l i k H. rewrite firstn_firstn. f_equal. lia. Qed.
Lemma pref_roll : forall w agg, pref1 (roll w agg).
Proof. intros w agg. unfold roll. apply (pref_at (fun l i => roll_at w agg l i)). intros l k i Hi Hl. unfold roll_at. rewrite firstn_firstn' by lia. reflexivity. Qed.
Lemma firstn_cons' : forall k (x : num) l, firstn (S k) (x :: l) = x :: firstn k l.
Proof. reflexivity. Qed.
Lemma pref_ffill : pref1 ffill.
Proof.
  assert (H : forall l last, length (ffill_from last l) = length l /\ forall k, ffill_from last (firstn k l) = firstn k (ffill_from last l)).
  { induction l as [|x l IH]; intros last; cbn [ffill_from]; [split; [reflexivity|intros [|k]; reflexivity]|]. split; [cbn [length]; rewrite (proj1 (IH _)); reflexivity|].
    intros [|k]; [reflexivity|]. rewrite !firstn_cons'. cbn [ffill_from]. rewrite (proj2 (IH _)). reflexivity. }
  intros l. apply H.
Qed.
Lemma pref_ewm : forall a minp s, pref1 (ewm_run a minp s).
Proof.
  intros a minp s l. revert s. induction l as [|x l IH]; intros s; cbn [ewm_run]; [split; [reflexivity|intros [|k]; reflexivity]|]. split; [cbn [length]; rewrite (proj1 (IH _)); reflexivity|].
  intros [|k]; [reflexivity|]. rewrite !firstn_cons'. cbn [ewm_run]. rewrite (proj2 (IH _)). reflexivity.
Qed.
Lemma pref_var : forall a s, pref1 (var_run a s).
Proof.
  intros a s l. revert s. induction l as [|x l IH]; intros s; cbn [var_run]; [split; [reflexivity|intros [|k]; reflexivity]|]. split; [cbn [length]; rewrite (proj1 (IH _)); reflexivity|].
  intros [|k]; [reflexivity|]. rewrite !firstn_cons'. cbn [var_run]. rewrite (proj2 (IH _)). reflexivity.
Qed.
(** two and more inputs *)
Definition pref2 (F : list num -> list num -> list num) : Prop := forall x y, length (F x y) = Nat.max (length x) (length y) /\ forall k, F (firstn k x) (firstn k y) = firstn k (F x y).
Definition pref3 (F : list num -> list num -> list num -> list num) : Prop := forall x y z, length (F x y z) = Nat.max (length x) (Nat.max (length y) (length z)) /\ forall k, F (firstn k x) (firstn k y) (firstn k z) = firstn k (F x y z).
Definition pref4 (F : list num -> list num -> list num -> list num -> list num) : Prop := forall x y z u, length (F x y z u) = Nat.max (Nat.max (length x) (length y)) (Nat.max (length z) (length u)) /\ forall k, F (firstn k x) (firstn k y) (firstn k z) (firstn k u) = firstn k (F x y z u).

(** ** windows *)
Lemma finite_map : forall v, finite (map Fin v) = Some v.
Proof. induction v as [|x v IH]; [reflexivity|]. cbn [map finite]. rewrite IH. reflexivity. Qed.
Lemma finite_some : forall l v, finite l = Some v -> l = map Fin v.
Proof.
  induction l as [|x l IH]; intros v H; cbn [finite] in H; [injection H as <-; reflexivity|].
  destruct x; try discriminate. destruct (finite l) as [v'|]; [|discriminate]. injection H as <-. cbn [map]. rewrite (IH v' eq_refl). reflexivity.
Qed.
Lemma window_list : forall l w i, (w <= S i)%nat -> (i < length l)%nat ->
  length (skipn (S i - w) (firstn (S i) l)) = w /\ forall j, (j < w)%nat -> nth j (skipn (S i - w) (firstn (S i) l)) NaN = nth (S i - w + j) l NaN.
Proof.
  intros l w i H1 H2. split; [rewrite skipn_length, firstn_length; lia|]. intros j Hj.
  assert (G : forall s (m : list num) d, nth j (skipn s m) d = nth (s + j) m d) by (induction s as [|s IH]; intros m d; [reflexivity|destruct m; [destruct j; reflexivity|cbn; apply IH]]).
  rewrite G. apply nth_first. lia.
Qed.
Lemma window_unique : forall l w i v v', window_is l w i v -> window_is l w i v' -> v = v'.
Proof.
  intros l w i v v' (_ & L1 & H1) (_ & L2 & H2). apply (nth_ext v v' 0 0); [congruence|]. intros j Hj. specialize (H1 j ltac:(lia)). specialize (H2 j ltac:(lia)). congruence.
Qed.
Lemma roll_at_window : forall w agg l i v, (i < length l)%nat -> window_is l w i v -> roll_at w agg l i = agg v.
Proof.
  intros w agg l i v Hi (H1 & H2 & H3). unfold roll_at. rewrite (proj2 (Nat.ltb_ge _ _) H1). destruct (window_list l w i H1 Hi) as [L1 N1].
  replace (skipn (S i - w) (firstn (S i) l)) with (map Fin v); [rewrite finite_map; reflexivity|].
  apply list_ext; [rewrite map_length; congruence|]. rewrite map_length. intros j Hj. rewrite N1 by lia. rewrite H3 by lia. rewrite (nth_indep _ NaN (Fin 0)) by (rewrite map_length; auto). apply map_nth.
Qed.
Lemma roll_at_none : forall w agg l i, (i < length l)%nat -> (forall v, ~ window_is l w i v) -> roll_at w agg l i = NaN.
Proof.
  intros w agg l i Hi H. unfold roll_at. destruct (Nat.ltb_spec (S i) w) as [|H1]; [reflexivity|]. destruct (window_list l w i H1 Hi) as [L1 N1].
  destruct (finite _) as [v|] eqn:E; [|reflexivity]. exfalso. apply (H v). apply finite_some in E. split; [auto|]. split; [rewrite E, map_length in L1; auto|].
  intros j Hj. rewrite <- N1 by auto. rewrite E. rewrite E, map_length in L1. rewrite (nth_indep _ NaN (Fin 0)) by (rewrite map_length; lia). apply map_nth.
Qed.
Lemma nth_roll : forall w agg l i, (i < length l)%nat -> nth i (roll w agg l) NaN = roll_at w agg l i.
Proof. intros. unfold roll. rewrite nth_seq_map' by auto. reflexivity. Qed.
Lemma nth_roll_over : forall w agg l i, (length l <= i)%nat -> nth i (roll w agg l) NaN = NaN.
Proof. intros. apply nth_overflow. unfold roll. rewrite map_length, seq_length. auto. Qed.
Lemma len_roll : forall w agg l, length (roll w agg l) = length l.
Proof. intros. unfold roll. rewrite map_length, seq_length. reflexivity. Qed.
Lemma window_dec : forall l w i, (i < length l)%nat -> (exists v, window_is l w i v) \/ (forall v, ~ window_is l w i v).
Proof.
  intros l w i Hi. destruct (Nat.lt_ge_cases (S i) w) as [H1|H1]; [right; intros v (X & _); lia|]. destruct (window_list l w i H1 Hi) as [L1 N1].
  destruct (finite (skipn (S i - w) (firstn (S i) l))) as [v|] eqn:E.
  - left. exists v. apply finite_some in E. split; [auto|]. rewrite E, map_length in L1. split; [auto|]. intros j Hj. rewrite <- N1 by auto. rewrite E. rewrite (nth_indep _ NaN (Fin 0)) by (rewrite map_length; lia). apply map_nth.
  - right. intros v (_ & L2 & H3). assert (X : skipn (S i - w) (firstn (S i) l) = map Fin v).
    { apply list_ext; [rewrite map_length; congruence|]. rewrite L1. intros j Hj. rewrite N1, H3 by auto. rewrite (nth_indep _ NaN (Fin 0)) by (rewrite map_length; lia). symmetry. apply map_nth. }
    rewrite X, finite_map in E. discriminate.
Qed.
Lemma roll_cases : forall w agg l i, nth i (roll w agg l) NaN = NaN \/ exists v, (i < length l)%nat /\ window_is l w i v /\ nth i (roll w agg l) NaN = agg v.
Proof.
  intros w agg l i. destruct (Nat.lt_ge_cases i (length l)) as [Hi|Hi]; [|left; apply nth_roll_over; auto]. rewrite nth_roll by auto.
  destruct (window_dec l w i Hi) as [(v & Hv)|Hn]; [right; exists v; split; [auto|split; [auto|apply roll_at_window; auto]]|left; apply roll_at_none; auto].
Qed.
Lemma rolling_inv : forall w agg l out, rolling w agg l = Ok out -> (0 <= w)%Z /\ out = roll (Z.to_nat w) agg l.
Proof. intros w agg l out H. unfold rolling in H. destruct (Z.ltb_spec w 0); [discriminate|]. injection H as <-. auto. Qed.
Lemma rolling_ok : forall w agg l, (0 <= w)%Z -> rolling w agg l = Ok (roll (Z.to_nat w) agg l).
Proof. intros w agg l H. unfold rolling. rewrite (proj2 (Z.ltb_ge _ _) H). reflexivity. Qed.
Lemma window_In : forall l w i v x, window_is l w i v -> In x v -> exists p, (p <= i)%nat /\ (S i - w <= p)%nat /\ nth p l NaN = Fin x.
Proof. intros l w i v x (H1 & H2 & H3) Hx. apply (In_nth _ _ 0) in Hx as (j & Hj & <-). exists (S i - w + j)%nat. split; [lia|]. split; [lia|]. apply H3. lia. Qed.

(** aggregates of a non-empty window *)
Lemma agg_mean_fin : forall v, v <> [] -> agg_mean v = Fin (rmean v).
Proof. intros. apply nmean_fin. auto. Qed.
Lemma agg_mean_nil : agg_mean [] = NaN.
Proof. unfold agg_mean, nmean, nofnat. cbn. unfold reqb. destruct (Req_EM_T 0 0); [|lra]. unfold sgn_inf, rltb. destruct (Rlt_dec 0 0); [lra|reflexivity]. Qed.
Lemma agg_var_fin : forall v, (2 <= length v)%nat -> agg_var v = Fin (rvar 1 v).
Proof. intros. apply nvar_fin. lia. Qed.
Lemma zero_div_zero : ndiv (Fin 0) (Fin 0) = NaN.
Proof. cbn. unfold reqb. destruct (Req_EM_T 0 0); [|lra]. unfold sgn_inf, rltb. destruct (Rlt_dec 0 0); [lra|reflexivity]. Qed.
Lemma agg_var_short : forall v, (length v < 2)%nat -> agg_var v = NaN.
Proof.
  intros [|x [|y v]] H; cbn [length] in H; try lia; unfold agg_var, nvar.
  - cbn [map length nsum fold_right]. apply zero_div_zero.
  - cbn [map length Nat.sub]. replace (nmean [Fin x]) with (Fin x) by (change [Fin x] with (map Fin [x]); rewrite nmean_fin by discriminate; unfold rmean; cbn; f_equal; field).
    unfold nsum. cbn [fold_right]. unfold nsqr, nsub. cbn [nneg nadd nmul]. replace ((x + - x) * (x + - x) + 0) with 0 by ring. apply zero_div_zero.
Qed.
Lemma fold_max_spec : forall v x, In (fold_left Rmax v x) (x :: v) /\ forall y, In y (x :: v) -> y <= fold_left Rmax v x.
Proof.
  induction v as [|z v IH]; intros x; cbn [fold_left].
  - split; [left; auto|]. intros y [->|[]]. lra.
  - destruct (IH (Rmax x z)) as [I1 I2]. split.
    + destruct I1 as [E|E]; [|right; right; auto]. rewrite <- E. unfold Rmax. destruct (Rle_dec x z); [right; left|left]; auto.
    + pose proof (I2 (Rmax x z) (or_introl eq_refl)) as B. intros y [<-|[<-|Hy]]; [pose proof (Rmax_l x z); lra|pose proof (Rmax_r x z); lra|apply I2; right; auto].
Qed.
Lemma fold_min_spec : forall v x, In (fold_left Rmin v x) (x :: v) /\ forall y, In y (x :: v) -> fold_left Rmin v x <= y.
Proof.
  induction v as [|z v IH]; intros x; cbn [fold_left].
  - split; [left; auto|]. intros y [->|[]]. lra.
  - destruct (IH (Rmin x z)) as [I1 I2]. split.
    + destruct I1 as [E|E]; [|right; right; auto]. rewrite <- E. unfold Rmin. destruct (Rle_dec x z); [left|right; left]; auto.
    + pose proof (I2 (Rmin x z) (or_introl eq_refl)) as B. intros y [<-|[<-|Hy]]; [pose proof (Rmin_l x z); lra|pose proof (Rmin_r x z); lra|apply I2; right; auto].
Qed.
Lemma rmean_bounds : forall v lo hi, v <> [] -> (forall x, In x v -> lo <= x <= hi) -> lo <= rmean v <= hi.
Proof.
  intros v lo hi Hv H. assert (P : 0 < INR (length v)) by (apply lt_0_INR; destruct v; [congruence|cbn; lia]).
  assert (L : INR (length v) * lo <= rsum v <= INR (length v) * hi).
  { rewrite <- !(rsum_const _ _ v). assert (E : rsum v = rsum (map (fun x => x) v)) by (rewrite map_id; reflexivity). rewrite E. split; apply rsum_le; intros x Hx; apply H; auto. }
  unfold rmean. split; apply (Rmult_le_reg_r (INR (length v))); auto; unfold Rdiv; rewrite Rmult_assoc, Rinv_l by lra; lra.
Qed.
Lemma rmean_scale : forall v c, rmean (map (Rmult c) v) = c * rmean v.
Proof. intros v c. unfold rmean. rewrite map_length. pose proof (rsum_scal R (fun x => x) c v) as H. rewrite map_id in H. change (map (Rmult c) v) with (map (fun x => c * x) v). rewrite H. unfold Rdiv. ring. Qed.
Lemma rvar_zero_iff : forall v, (2 <= length v)%nat -> (rvar 1 v = 0 <-> forall x y, In x v -> In y v -> x = y).
Proof.
  intros v Hv. assert (P : 0 < INR (length v - 1)) by (apply lt_0_INR; lia). split.
  - intros H. assert (Z : rsum (map (fun x => (x - rmean v) * (x - rmean v)) v) = 0).
    { unfold rvar, Rdiv in H. apply Rmult_integral in H as [H|H]; [auto|]. pose proof (Rinv_0_lt_compat _ P). lra. }
    clear H. generalize dependent (rmean v) . intros m Z. assert (A : forall x, In x v -> x = m).
    { intros x Hx. apply in_split in Hx as (l1 & l2 & E). rewrite E in Z. rewrite map_app, rsum_app in Z. cbn [map rsum fold_right] in Z.
      assert (N1 : 0 <= rsum (map (fun x => (x - m) * (x - m)) l1)) by (apply rsum_nonneg; intros y Hy; apply in_map_iff in Hy as (z & <- & _); apply Rle_0_sqr).
      assert (N2 : 0 <= rsum (map (fun x => (x - m) * (x - m)) l2)) by (apply rsum_nonneg; intros y Hy; apply in_map_iff in Hy as (z & <- & _); apply Rle_0_sqr).
      unfold rsum in *. pose proof (Rle_0_sqr (x - m)) as N3. unfold Rsqr in N3.
      assert (X : (x - m) * (x - m) = 0) by lra. apply Rmult_integral in X. lra. }
    intros x y Hx Hy. rewrite (A x Hx), (A y Hy). reflexivity.
  - intros H. destruct v as [|x v]; [cbn in Hv; lia|]. assert (M : rmean (x :: v) = x).
    { destruct (rmean_bounds (x :: v) x x) as [B1 B2]; [discriminate| |lra]. intros y Hy. rewrite (H y x); [lra|auto|left; auto]. }
    unfold rvar. rewrite M. rewrite (rsum_ext _ _ (fun _ => 0)) by (intros y Hy; rewrite (H y x); [ring|auto|left; auto]). rewrite rsum_const. unfold Rdiv. ring.
Qed.
