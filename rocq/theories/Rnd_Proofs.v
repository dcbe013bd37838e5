(** Lemmas on rounded arithmetic: rounding, pandas' one-pass window mean, exponential averages, strengths. *)
From Coq Require Import Reals Lra Lia String ZArith List Arith Bool.
From Flocq Require Import Core.
From Verif Require Import Base Num Sums Sim_Model Dist_Model Rnd_Model Rnd_Spec.
From Verif Require Import Feat_Ops Feat_Model Feat_Proofs.
Import ListNotations.
Open Scope R_scope.

(** ** consequences of [rounding] *)
Section R.
Variable r : R -> R.
Hypothesis H : rounding r.
Lemma r_0 : r 0 = 0.
Proof. generalize (r_opp r H 0). rewrite Ropp_0. lra. Qed.
Lemma r_2 : r 2 = 2.
Proof. generalize (r_double r H 1 (r_1 r H)). unfold held. replace (2 * 1) with 2 by lra. auto. Qed.
Lemma r_pos : forall x, 0 <= x -> 0 <= r x.
Proof. intros x Hx. rewrite <- r_0. apply (r_mono r H); auto. Qed.
Lemma r_neg : forall x, x <= 0 -> r x <= 0.
Proof. intros x Hx. rewrite <- r_0. apply (r_mono r H); auto. Qed.
Lemma r_le1 : forall x, x <= 1 -> r x <= 1.
Proof. intros x Hx. rewrite <- (r_1 r H). apply (r_mono r H); auto. Qed.
Lemma r_ge1 : forall x, 1 <= x -> 1 <= r x.
Proof. intros x Hx. rewrite <- (r_1 r H). apply (r_mono r H); auto. Qed.
Lemma r_ge_held : forall x y, held r y -> y <= x -> y <= r x.
Proof. intros x y Hy Hx. rewrite <- Hy. apply (r_mono r H); auto. Qed.
Lemma r_le_held : forall x y, held r y -> x <= y -> r x <= y.
Proof. intros x y Hy Hx. rewrite <- Hy. apply (r_mono r H); auto. Qed.
Lemma held_0 : held r 0. Proof. apply r_0. Qed.
Lemma held_opp : forall x, held r x -> held r (- x).
Proof. intros x Hx. unfold held. rewrite (r_opp r H), Hx. reflexivity. Qed.
Lemma held_abs : forall x, held r x -> held r (Rabs x).
Proof. intros x Hx. unfold Rabs. destruct (Rcase_abs x); auto. apply held_opp; auto. Qed.
End R.

(** ** the one-pass window mean *)
Definition pv (l : list num) : list R := flat_map (fun x => match present x with Some v => [v] | None => [] end) l.
Definition raw (w : nat) (l : list num) (i : nat) : list num := map (fun k => nth k l NaN) (seq (S i - w) (Nat.min (S i) w)).
Fixpoint run (h : list R) : nat :=
  match h with
  | [] => 0
  | a :: t => match t with [] => 1 | b :: _ => if reqb a b then S (run t) else 1 end
  end.
Definition negs (l : list R) : nat := length (filter (fun v => rltb v 0) l).

Lemma raw_0 : forall w l, (1 <= w)%nat -> raw w l 0 = [nth 0 l NaN].
Proof. intros [|w] l Hw; [lia|]. unfold raw. replace (1 - S w)%nat with 0%nat by lia. replace (Nat.min 1 (S w)) with 1%nat by lia. reflexivity. Qed.
Lemma raw_1 : forall l i, raw 1 l i = [nth i l NaN].
Proof. intros l i. unfold raw. replace (S i - 1)%nat with i by lia. replace (Nat.min (S i) 1) with 1%nat by lia. reflexivity. Qed.
Lemma raw_grow : forall w l i, (S i < w)%nat -> raw w l (S i) = raw w l i ++ [nth (S i) l NaN].
Proof.
  intros w l i Hw. unfold raw. replace (S (S i) - w)%nat with 0%nat by lia. replace (S i - w)%nat with 0%nat by lia.
  replace (Nat.min (S (S i)) w) with (S (S i)) by lia. replace (Nat.min (S i) w) with (S i) by lia.
  rewrite (seq_S (S i)), map_app. reflexivity.
Qed.
Lemma raw_slide : forall w l i, (2 <= w)%nat -> (w <= S i)%nat ->
  exists m, raw w l i = nth (S i - w) l NaN :: m /\ raw w l (S i) = m ++ [nth (S i) l NaN].
Proof.
  intros w l i Hw Hi. unfold raw. replace (Nat.min (S i) w) with w by lia. replace (Nat.min (S (S i)) w) with w by lia.
  destruct w as [|w]; [lia|]. exists (map (fun k => nth k l NaN) (seq (S (S i - S w)) w)). split; [reflexivity|].
  replace (S (S i) - S w)%nat with (S (S i - S w)) by lia. rewrite seq_S, map_app. cbn [map]. do 3 f_equal. lia.
Qed.
Lemma pv_app : forall a b, pv (a ++ b) = pv a ++ pv b.
Proof. intros. unfold pv. apply flat_map_app. Qed.
Lemma pv_len : forall l, (length (pv l) <= length l)%nat.
Proof. induction l as [|x l IH]; [auto|]. unfold pv in *. cbn [flat_map]. rewrite app_length. destruct (present x); cbn [length]; lia. Qed.
Lemma raw_len : forall w l i, length (raw w l i) = Nat.min (S i) w.
Proof. intros. unfold raw. rewrite map_length, seq_length. reflexivity. Qed.
Lemma pv_full : forall l, length (pv l) = length l -> finite l = Some (pv l).
Proof.
  induction l as [|x l IH]; [reflexivity|]. intros E. unfold pv in E. cbn [flat_map length] in E. rewrite app_length in E. fold (pv l) in E.
  generalize (pv_len l); intros L. destruct x; cbn [present length] in E; try lia. cbn [finite]. rewrite IH by lia. reflexivity.
Qed.
Lemma pv_notfull : forall l, length (pv l) <> length l -> finite l = None.
Proof.
  induction l as [|x l IH]; [intros E; exfalso; apply E; reflexivity|]. intros E. unfold pv in E. cbn [flat_map length] in E. rewrite app_length in E. fold (pv l) in E.
  destruct x; cbn [present length finite] in *; auto. rewrite IH by lia. reflexivity.
Qed.
Lemma raw_skip : forall w l i, (i < length l)%nat -> skipn (S i - w) (firstn (S i) l) = raw w l i.
Proof.
  intros w l i Hi. assert (L : length (skipn (S i - w) (firstn (S i) l)) = length (raw w l i)).
  { rewrite skipn_length, firstn_length, raw_len. lia. }
  apply (nth_ext _ _ NaN NaN L). intros k Hk. rewrite L, raw_len in Hk. unfold raw.
  rewrite (nth_indep _ NaN (nth 0%nat l NaN)) by (rewrite L, raw_len; auto).
  rewrite (nth_indep (map _ _) NaN (nth 0%nat l NaN)) by (rewrite map_length, seq_length; auto).
  rewrite (map_nth (fun k => nth k l NaN)). rewrite seq_nth by lia.
  transitivity (nth (S i - w + k) (firstn (S i) l) (nth 0 l NaN)).
  - clear. revert k. generalize (S i - w)%nat as a. generalize (firstn (S i) l) as u. induction u as [|x u IH]; intros [|a] k; cbn [skipn]; auto.
    + destruct k, (a + 0)%nat; reflexivity.
    + rewrite IH. reflexivity.
  - rewrite (nth_indep _ (nth 0 l NaN) NaN) by (rewrite firstn_length; lia). rewrite nth_first by lia. reflexivity.
Qed.
Lemma run_all : forall h n v, (n <= run h)%nat -> In v (firstn n h) -> v = hd 0 h.
Proof.
  induction h as [|a t IH]; intros [|n] v Hn Hv; cbn [firstn hd] in *; try contradiction.
  destruct Hv as [Hv|Hv]; auto. cbn [run] in Hn. destruct t as [|b t']; [destruct n; contradiction|].
  unfold reqb in Hn. destruct (Req_EM_T a b) as [E|E]; [|assert (n = 0%nat) by lia; subst; contradiction].
  rewrite (IH n v) by (auto; lia). cbn [hd]. auto.
Qed.
Lemma run_ge : forall h n c, (n <= length h)%nat -> (forall v, In v (firstn n h) -> v = c) -> (n <= run h)%nat.
Proof.
  induction h as [|a t IH]; intros [|n] c Hn Hv; cbn [length] in *; try lia.
  cbn [run]. destruct t as [|b t']; [cbn [length] in *; lia|]. destruct n as [|n]; [destruct (reqb a b); lia|].
  assert (a = c) by (apply Hv; left; auto). assert (b = c) by (apply Hv; right; left; auto).
  unfold reqb. destruct (Req_EM_T a b); [|congruence]. assert (S n <= run (b :: t'))%nat; [|lia]. apply IH with c; [lia|]. intros v Hv'. apply Hv. right. exact Hv'.
Qed.

(** the counters do not depend on the rounding *)
Record counts (s : mstate) (W : list R) (h : list R) : Prop := mkC {
  c_n : ms_n s = length W;
  c_w : W = rev (firstn (length W) h);
  c_len : (length W <= length h)%nat;
  c_neg : ms_neg s = negs W;
  c_same : ms_same s = run h;
  c_prev : match h with [] => True | a :: _ => ms_prev s = Fin a end
}.
Lemma negs_app : forall a b, negs (a ++ b) = (negs a + negs b)%nat.
Proof. intros. unfold negs. rewrite filter_app, app_length. reflexivity. Qed.
Lemma counts_add : forall M s W h x, counts s W h ->
  counts (ms_add M s x) (W ++ pv [x]) (match present x with Some v => v :: h | None => h end).
Proof.
  intros M s W h x C. unfold ms_add, pv. cbn [flat_map]. destruct (present x) as [v|]; [|rewrite app_nil_r; auto].
  destruct C as [Cn Cw Cl Cg Cs Cp]. cbn [app]. split; cbn [ms_n ms_sum ms_neg ms_ca ms_cr ms_same ms_prev].
  - rewrite Cn, app_length. cbn. lia.
  - rewrite app_length. cbn [length]. replace (length W + 1)%nat with (S (length W)) by lia. cbn [firstn rev]. rewrite <- Cw. reflexivity.
  - rewrite app_length. cbn [length]. lia.
  - rewrite negs_app, Cg. replace (negs [v]) with (if rltb v 0 then 1 else 0)%nat by (unfold negs; cbn [filter]; destruct (rltb v 0); reflexivity). destruct (rltb v 0); lia.
  - rewrite Cs. cbn [run]. destruct h as [|b t]; [destruct (neqb _ _); reflexivity|]. rewrite Cp. reflexivity.
  - reflexivity.
Qed.
Lemma counts_remove : forall M s W h x, counts s (pv [x] ++ W) h -> counts (ms_remove M s x) W h.
Proof.
  intros M s W h x. unfold ms_remove, pv. cbn [flat_map]. destruct (present x) as [v|]; [|auto]. cbn [app]. intros [Cn Cw Cl Cg Cs Cp].
  cbn [length] in *. split; cbn [ms_n ms_sum ms_neg ms_ca ms_cr ms_same ms_prev]; auto; try lia.
  - apply (f_equal (@rev R)) in Cw. rewrite rev_involutive in Cw. cbn [rev] in Cw.
    rewrite <- (rev_involutive W) at 1. f_equal.
    assert (E : firstn (length W) (firstn (S (length W)) h) = firstn (length W) (rev W ++ [v])) by (rewrite Cw; reflexivity).
    rewrite firstn_firstn in E. replace (Nat.min (length W) (S (length W))) with (length W) in E by lia. rewrite E.
    rewrite firstn_app, rev_length, Nat.sub_diag. cbn [firstn]. rewrite app_nil_r. rewrite <- (rev_length W). symmetry. apply firstn_all.
  - rewrite Cg. unfold negs. cbn [filter]. destruct (rltb v 0); cbn [length]; lia.
Qed.
Lemma counts_fresh : forall M l i, exists h, counts (ms_fresh M l i) (pv [nth i l NaN]) h /\ (forall v, In v h -> exists k, (k <= i)%nat /\ nth k l NaN = Fin v).
Proof.
  intros M l i. eexists. split.
  - unfold ms_fresh. change (pv [nth i l NaN]) with ([] ++ pv [nth i l NaN]). apply (counts_add M _ [] []). split; cbn; auto.
  - intros v Hv. exists i. split; [lia|]. destruct (nth i l NaN) as [a| | |]; cbn [present] in Hv; try contradiction. destruct Hv as [<-|[]]. reflexivity.
Qed.
Lemma counts_at : forall M w l i, (1 <= w)%nat -> exists h, counts (ms_at M w l i) (pv (raw w l i)) h /\ (forall v, In v h -> exists k, (k <= i)%nat /\ nth k l NaN = Fin v).
Proof.
  intros M w l i Hw. induction i as [|i [h [IH Hh]]].
  - rewrite raw_0 by auto. apply counts_fresh.
  - cbn [ms_at]. destruct (Nat.eqb_spec w 1) as [E|E]; [subst; rewrite raw_1; apply counts_fresh|].
    exists (match present (nth (S i) l NaN) with Some v => v :: h | None => h end). split.
    + destruct (Nat.leb_spec w (S i)) as [L|L].
      * destruct (raw_slide w l i) as [m [Hm Hm']]; [lia|lia|]. rewrite Hm', pv_app. apply counts_add. apply counts_remove.
        change (nth (S i - w) l NaN :: m) with ([nth (S i - w) l NaN] ++ m) in Hm. rewrite Hm, pv_app in IH. exact IH.
      * rewrite raw_grow by lia. rewrite pv_app. apply counts_add. exact IH.
    + intros v Hv. assert (D : In v h \/ nth (S i) l NaN = Fin v).
      { destruct (nth (S i) l NaN) as [a| | |]; cbn [present] in Hv; auto. destruct Hv as [<-|Hv]; auto. }
      destruct D as [D|D]; [destruct (Hh v D) as [k [Hk E']]; exists k; split; [lia|auto]|exists (S i); split; [lia|auto]].
Qed.

(** without rounding the sum is the sum of the window *)
Definition sums (s : mstate) (W : list R) : Prop := ms_sum s = rsum W /\ ms_ca s = 0 /\ ms_cr s = 0.
Lemma sums_add : forall s W x, sums s W -> sums (ms_add exact s x) (W ++ pv [x]).
Proof.
  intros s W x [Hs [Ha Hr]]. unfold ms_add, pv, sums, exact. cbn [flat_map rnd]. destruct (present x) as [v|]; cbn [app ms_sum ms_ca ms_cr]; [|rewrite app_nil_r; auto].
  rewrite Hs, Ha, Hr, rsum_app. cbn [rsum fold_right]. repeat split; lra.
Qed.
Lemma sums_remove : forall s W x, sums s (pv [x] ++ W) -> sums (ms_remove exact s x) W.
Proof.
  intros s W x. unfold ms_remove, pv, sums, exact. cbn [flat_map rnd]. destruct (present x) as [v|]; cbn [app ms_sum ms_ca ms_cr]; [|auto].
  intros [Hs [Ha Hr]]. rewrite Hs, Ha, Hr. unfold rsum. cbn [fold_right]. repeat split; lra.
Qed.
Lemma sums_at : forall w l i, (1 <= w)%nat -> sums (ms_at exact w l i) (pv (raw w l i)).
Proof.
  assert (F : forall l i, sums (ms_fresh exact l i) (pv [nth i l NaN])).
  { intros l i. unfold ms_fresh. change (pv [nth i l NaN]) with ([] ++ pv [nth i l NaN]). apply sums_add. repeat split. }
  intros w l i Hw. induction i as [|i IH].
  - rewrite raw_0 by auto. apply F.
  - cbn [ms_at]. destruct (Nat.eqb_spec w 1) as [E|E]; [subst; rewrite raw_1; apply F|].
    destruct (Nat.leb_spec w (S i)) as [L|L].
    + destruct (raw_slide w l i) as [m [Hm Hm']]; [lia|lia|]. rewrite Hm', pv_app. apply sums_add. apply sums_remove.
      change (nth (S i - w) l NaN :: m) with ([nth (S i - w) l NaN] ++ m) in Hm. rewrite Hm, pv_app in IH. exact IH.
    + rewrite raw_grow by lia. rewrite pv_app. apply sums_add. exact IH.
Qed.
Lemma rsum_const : forall l c, (forall v, In v l -> v = c) -> rsum l = INR (length l) * c.
Proof.
  induction l as [|a l IH]; intros c Hc; [cbn; lra|]. cbn [rsum fold_right length]. fold (rsum l). rewrite (IH c) by (intros; apply Hc; right; auto).
  rewrite (Hc a) by (left; auto). rewrite S_INR. lra.
Qed.
Lemma negs_0 : forall l, negs l = 0%nat -> forall v, In v l -> 0 <= v.
Proof.
  induction l as [|a l IH]; intros E v Hv; [contradiction|]. unfold negs in E. cbn [filter] in E. destruct (rltb a 0) eqn:Ea; [cbn in E; lia|].
  destruct Hv as [<-|Hv]; [apply rltb_false in Ea; auto|apply IH; auto].
Qed.
Lemma negs_le : forall l, (negs l <= length l)%nat.
Proof. induction l as [|a l IH]; [auto|]. unfold negs in *. cbn [filter length]. destruct (rltb a 0); cbn [length]; lia. Qed.
Lemma negs_all : forall l, negs l = length l -> forall v, In v l -> v < 0.
Proof.
  induction l as [|a l IH]; intros E v Hv; [contradiction|]. unfold negs in E. cbn [filter] in E. generalize (negs_le l); intros L. unfold negs in *.
  destruct (rltb a 0) eqn:Ea; [|cbn [length] in E; lia]. cbn [length] in E.
  destruct Hv as [<-|Hv]; [apply rltb_true in Ea; auto|apply IH; auto; lia].
Qed.
Lemma rsum_pos : forall l, (forall v, In v l -> 0 <= v) -> 0 <= rsum l.
Proof. induction l as [|a l IH]; intros Hl; [cbn; lra|]. cbn [rsum fold_right]. fold (rsum l). generalize (Hl a (or_introl eq_refl)) (IH (fun v Hv => Hl v (or_intror Hv))). lra. Qed.
Lemma rsum_negs : forall l, (forall v, In v l -> v < 0) -> rsum l <= 0.
Proof. induction l as [|a l IH]; intros Hl; [cbn; lra|]. cbn [rsum fold_right]. fold (rsum l). generalize (Hl a (or_introl eq_refl)) (IH (fun v Hv => Hl v (or_intror Hv))). lra. Qed.

Lemma ms_exact : forall w l i, (1 <= w)%nat -> (i < length l)%nat -> ms_out exact w (ms_at exact w l i) = roll_at w agg_mean l i.
Proof.
  intros w l i Hw Hi. destruct (counts_at exact w l i Hw) as [h [C _]]. destruct (sums_at w l i Hw) as [Hs _]. unfold ms_out, roll_at.
  rewrite (c_n _ _ _ C). rewrite raw_skip by auto. generalize (pv_len (raw w l i)); rewrite raw_len; intros L.
  destruct (Nat.leb_spec w (length (pv (raw w l i)))) as [E|E].
  - assert (E' : length (pv (raw w l i)) = w) by lia. destruct (Nat.ltb_spec (S i) w); [lia|]. destruct (Nat.ltb_spec 0 (length (pv (raw w l i)))); [|lia].
    rewrite pv_full by (rewrite raw_len; lia). cbn [andb]. unfold agg_mean. rewrite nmean_fin by (intros Hn; rewrite Hn in E'; cbn in E'; lia).
    unfold rmean. rewrite Hs. cbn [rnd exact]. set (W := pv (raw w l i)) in *. assert (P : 0 < INR (length W)) by (apply lt_0_INR; lia).
    rewrite (c_same _ _ _ C). destruct (Nat.leb_spec (length W) (run h)) as [S1|S1].
    + destruct h as [|a t]; [change (run []) with 0%nat in S1; lia|]. rewrite (c_prev _ _ _ C). f_equal. rewrite (rsum_const W a); [field; lra|].
      intros v Hv. rewrite (c_w _ _ _ C) in Hv. apply in_rev in Hv. apply (run_all _ _ v S1 Hv).
    + rewrite (c_neg _ _ _ C). destruct (Nat.eqb_spec (negs W) 0) as [N|N].
      * cbn [andb]. assert (0 <= rsum W / INR (length W)). { apply Rmult_le_pos; [apply rsum_pos; apply negs_0; auto|left; apply Rinv_0_lt_compat; auto]. }
        destruct (rltb (rsum W / INR (length W)) 0) eqn:B; [apply rltb_true in B; lra|]. destruct (Nat.eqb_spec (negs W) (length W)); [lia|]. reflexivity.
      * cbn [andb]. destruct (Nat.eqb_spec (negs W) (length W)) as [N'|N']; [|reflexivity]. cbn [andb].
        assert (rsum W / INR (length W) <= 0). { generalize (rsum_negs W (negs_all W N')). intros Q. unfold Rdiv. generalize (Rinv_0_lt_compat _ P). nra. }
        destruct (rltb 0 (rsum W / INR (length W))) eqn:B; [apply rltb_true in B; lra|]. reflexivity.
  - cbn [andb]. destruct (Nat.ltb_spec (S i) w); [reflexivity|]. rewrite pv_notfull; [reflexivity|]. rewrite raw_len. lia.
Qed.
Lemma roll_mean_exact : forall w l, (1 <= w)%nat -> r_roll_mean exact w l = roll w agg_mean l.
Proof. intros w l Hw. unfold r_roll_mean, roll. apply map_ext_in. intros i Hi. apply in_seq in Hi. apply ms_exact; auto; lia. Qed.

Lemma nth_map_in : forall (f : num -> num) l k, (k < length l)%nat -> nth k (map f l) NaN = f (nth k l NaN).
Proof. intros f l k Hk. rewrite (nth_indep _ NaN (f NaN)) by (rewrite map_length; auto). apply map_nth. Qed.
(** ** non-negative averages *)
Definition npos (r : R -> R) (x : num) : Prop := x = NaN \/ exists a, x = Fin a /\ 0 <= a /\ held r a.
(** what the windows see: infinities count as missing *)
Definition ipos (r : R -> R) (x : num) : Prop := forall a, x = Fin a -> 0 <= a /\ held r a.

Lemma raw_in : forall w l i x, In x (raw w l i) -> exists k, (S i - w <= k <= i)%nat /\ x = nth k l NaN.
Proof. intros w l i x Hx. unfold raw in Hx. apply in_map_iff in Hx. destruct Hx as [k [E Hk]]. apply in_seq in Hk. exists k. split; [lia|auto]. Qed.
Lemma pv_in : forall l v, In v (pv l) -> In (Fin v) l.
Proof. intros l v Hv. unfold pv in Hv. apply in_flat_map in Hv. destruct Hv as [x [Hx Hv]]. destruct x; cbn in Hv; try contradiction. destruct Hv as [<-|[]]. auto. Qed.

Section W.
Variable M : machine.
Hypothesis H : rounding (rnd M).
Lemma roll_mean_pos : forall w l i, (1 <= w)%nat -> (forall k, ipos (rnd M) (nth k l NaN)) -> npos (rnd M) (ms_out M w (ms_at M w l i)).
Proof.
  intros w l i Hw Hl. destruct (counts_at M w l i Hw) as [h [C Hh]]. unfold ms_out.
  destruct (Nat.leb w (ms_n (ms_at M w l i)) && Nat.ltb 0 (ms_n (ms_at M w l i))) eqn:B; [|left; reflexivity]. right.
  apply andb_true_iff in B. destruct B as [B1 B2]. apply Nat.ltb_lt in B2.
  destruct (Nat.leb_spec (ms_n (ms_at M w l i)) (ms_same (ms_at M w l i))) as [S1|S1].
  - rewrite (c_same _ _ _ C) in S1. destruct h as [|a t]; [cbn in S1; lia|]. exists a. split; [apply (c_prev _ _ _ C)|].
    destruct (Hh a (or_introl eq_refl)) as [k [_ E]]. apply (Hl k). auto.
  - assert (N : ms_neg (ms_at M w l i) = 0%nat).
    { rewrite (c_neg _ _ _ C). unfold negs. destruct (filter _ _) as [|a f] eqn:F; [reflexivity|exfalso].
      assert (In a (a :: f)) as I by (left; auto). rewrite <- F in I. apply filter_In in I. destruct I as [I J]. apply rltb_true in J.
      apply pv_in in I. apply raw_in in I. destruct I as [k [_ E]]. destruct (Hl k a); auto. lra. }
    rewrite N. cbn [Nat.eqb andb]. destruct (rltb _ 0) eqn:B; [exists 0; repeat split; [lra|apply held_0; auto]|]. apply rltb_false in B.
    destruct (ms_n (ms_at M w l i)) as [|n']; [lia|]. cbn [Nat.eqb andb].
    eexists. split; [reflexivity|]. split; [exact B|apply (r_idem _ H)].
Qed.
Lemma roll_mean_const : forall w l i c, (1 <= w)%nat -> (w <= S i)%nat -> (forall k, (S i - w <= k <= i)%nat -> nth k l NaN = Fin c) ->
  ms_out M w (ms_at M w l i) = Fin c.
Proof.
  intros w l i c Hw Hi Hc. destruct (counts_at M w l i Hw) as [h [C Hh]]. unfold ms_out.
  assert (E : pv (raw w l i) = repeat c w).
  { unfold raw. replace (Nat.min (S i) w) with w by lia. assert (G : forall n a, (forall k, (a <= k < a + n)%nat -> nth k l NaN = Fin c) -> pv (map (fun k => nth k l NaN) (seq a n)) = repeat c n).
    { induction n as [|n IH]; intros a Ha; [reflexivity|]. cbn [seq map]. change (?x :: ?y) with ([x] ++ y) at 1. rewrite pv_app. rewrite (Ha a) by lia. cbn. f_equal. apply IH. intros. apply Ha. lia. }
    apply G. intros k Hk. apply Hc. lia. }
  assert (N : ms_n (ms_at M w l i) = w) by (rewrite (c_n _ _ _ C), E, repeat_length; auto). rewrite N.
  rewrite Nat.leb_refl. destruct (Nat.ltb_spec 0 w); [|lia]. cbn [andb].
  assert (A : forall v, In v (firstn w h) -> v = c).
  { intros v Hv. generalize (c_w _ _ _ C). rewrite E, repeat_length. intros W. apply in_rev in Hv. rewrite <- W in Hv. apply repeat_spec in Hv. auto. }
  assert (Lh : (w <= length h)%nat) by (generalize (c_len _ _ _ C); rewrite E, repeat_length; auto).
  rewrite (c_same _ _ _ C). destruct (Nat.leb_spec w (run h)) as [S1|S1]; [|generalize (run_ge h w c Lh A); lia].
  destruct h as [|a t]; [cbn in Lh; lia|]. rewrite (c_prev _ _ _ C). f_equal. apply A. destruct w; [lia|]. left; auto.
Qed.

Definition ewm_ok (s : ewm_state) : Prop := let '(m, old, _) := s in 0 <= old /\ match m with Some a => 0 <= a /\ held (rnd M) a | None => True end.
Lemma ewm_step_ok : forall a s x, 0 <= a <= 1 -> ewm_ok s -> ipos (rnd M) x -> ewm_ok (r_ewm_step M a s x).
Proof.
  intros a [[m old] nobs] x Ha [Ho Hm] Hx. unfold r_ewm_step.
  assert (P : 0 <= rnd M (1 - a)) by (apply r_pos; auto; lra). assert (P2 : 0 <= rnd M (old * rnd M (1 - a))) by (apply r_pos; auto; apply Rmult_le_pos; auto).
  destruct m as [m|]; destruct x as [c| | |]; cbn [present]; unfold ewm_ok; auto.
  - destruct (Hx c eq_refl) as [C1 C2]. destruct Hm as [M1 M2]. split; [apply r_pos; auto; lra|].
    destruct (reqb m c); [auto|]. split; [|apply (r_idem _ H)]. apply r_pos; auto.
    assert (1 <= rnd M (rnd M (old * rnd M (1 - a)) + 1)) by (apply r_ge1; auto; lra).
    apply Rmult_le_pos; [|left; apply Rinv_0_lt_compat; lra]. apply r_pos; auto.
    apply Rplus_le_le_0_compat; apply r_pos; auto; [apply Rmult_le_pos; auto|lra].
Qed.
Lemma ewm_run_pos : forall a l s k, 0 <= a <= 1 -> ewm_ok s -> (forall j, ipos (rnd M) (nth j l NaN)) -> npos (rnd M) (nth k (r_ewm_run M a 0 s l) NaN).
Proof.
  intros a l. induction l as [|x l IH]; intros s k Ha Hs Hl; [destruct k; left; reflexivity|]. cbn [r_ewm_run].
  assert (Hs' : ewm_ok (r_ewm_step M a s x)) by (apply ewm_step_ok; auto; apply (Hl 0%nat)).
  destruct k as [|k]; cbn [nth]; [|apply IH; auto; intros j; apply (Hl (S j))].
  destruct (r_ewm_step M a s x) as [[m old] nobs]. unfold ewm_out. destruct m as [m|]; [|left; reflexivity].
  destruct (Nat.leb _ nobs); [right; exists m; repeat split; apply Hs'|left; reflexivity].
Qed.
Lemma ewm_init : ewm_ok (None, 1, 0%nat). Proof. split; [lra|auto]. Qed.
(** equal values so far *)
Lemma ewm_run_const : forall a c l m old nobs k, (m = None \/ m = Some c) -> (1 <= nobs \/ m = None)%nat -> (k < length l)%nat -> (forall j, (j <= k)%nat -> nth j l NaN = Fin c) ->
  nth k (r_ewm_run M a 0 (m, old, nobs) l) NaN = Fin c.
Proof.
  intros a c. induction l as [|x l IH]; intros m old nobs k Hm Hn Hk Hl; [cbn in Hk; lia|].
  cbn [r_ewm_run]. assert (E : x = Fin c) by (apply (Hl 0%nat); lia). subst x.
  assert (Q : exists o', r_ewm_step M a (m, old, nobs) (Fin c) = (Some c, o', S nobs)).
  { unfold r_ewm_step. cbn [present]. destruct m as [m|]; [|eexists; reflexivity]. destruct Hm as [Hm|Hm]; [discriminate|]. injection Hm as ->.
    unfold reqb. destruct (Req_EM_T c c); [|congruence]. eexists; reflexivity. }
  destruct Q as [o' ->]. destruct k as [|k]; cbn [nth].
  - unfold ewm_out. destruct (Nat.leb_spec (Nat.max 0 1) (S nobs)); [reflexivity|lia].
  - apply IH; auto; [left; lia|cbn in Hk; lia|]. intros j Hj. apply (Hl (S j)). lia.
Qed.

(** ** strengths *)
Lemma strength_range : forall u d, npos (rnd M) u -> npos (rnd M) d -> within 0 100 (r_strength M u d).
Proof.
  intros u d [->|[a [-> [A1 A2]]]] [->|[b [-> [B1 B2]]]]; try (left; reflexivity).
  unfold r_strength, fmul, fdiv, fadd. cbn [nadd fl]. assert (P : a <= rnd M (a + b)) by (apply r_ge_held; auto; lra).
  unfold ndiv. destruct (reqb (rnd M (a + b)) 0) eqn:E.
  - apply reqb_true in E. assert (a = 0) by lra. subst a. left. unfold sgn_inf. assert (Z : rltb 0 0 = false) by (apply rltb_false; lra). rewrite Z. reflexivity.
  - apply reqb_false in E. right. cbn [fl nmul]. eexists. split; [reflexivity|].
    assert (Q : 0 <= a / rnd M (a + b) <= 1).
    { assert (0 < rnd M (a + b)) by lra. split; [apply Rmult_le_pos; [auto|left; apply Rinv_0_lt_compat; auto]|]. apply Rmult_le_reg_r with (rnd M (a + b)); auto. field_simplify; lra. }
    assert (Q' : 0 <= rnd M (a / rnd M (a + b)) <= 1) by (split; [apply r_pos; auto; lra|apply r_le1; auto; lra]).
    split; [apply r_pos; auto; lra|]. apply r_le_held; [auto|apply (r_100 _ H)|lra].
Qed.
Lemma strength_100 : forall u, npos (rnd M) u -> r_strength M u (Fin 0) = NaN \/ r_strength M u (Fin 0) = Fin 100.
Proof.
  intros u [->|[a [-> [A1 A2]]]]; [left; reflexivity|]. unfold r_strength, fmul, fdiv, fadd. cbn [nadd fl]. rewrite Rplus_0_r. rewrite A2. unfold ndiv.
  destruct (reqb a 0) eqn:E.
  - apply reqb_true in E. subst a. left. unfold sgn_inf. assert (Z : rltb 0 0 = false) by (apply rltb_false; lra). rewrite Z. reflexivity.
  - apply reqb_false in E. right. cbn [fl nmul]. replace (a / a) with 1 by (field; auto). rewrite (r_1 _ H). rewrite Rmult_1_r, (r_100 _ H). reflexivity.
Qed.
Lemma strength_0 : forall d, npos (rnd M) d -> r_strength M (Fin 0) d = NaN \/ r_strength M (Fin 0) d = Fin 0.
Proof.
  intros u [->|[a [-> [A1 A2]]]]; [left; reflexivity|]. unfold r_strength, fmul, fdiv, fadd. cbn [nadd fl]. rewrite Rplus_0_l. rewrite A2. unfold ndiv.
  destruct (reqb a 0) eqn:E.
  - left. unfold sgn_inf. assert (Z : rltb 0 0 = false) by (apply rltb_false; lra). rewrite Z. reflexivity.
  - apply reqb_false in E. right. cbn [fl nmul]. replace (0 / a) with 0 by (field; auto). rewrite (r_0 _ H). rewrite Rmult_0_r, (r_0 _ H). reflexivity.
Qed.
Lemma fsub_nan : fsub M NaN NaN = NaN. Proof. reflexivity. Qed.
Lemma nth_rdiff : forall ts k, nth k (r_diff M ts) NaN = fsub M (nth k ts NaN) (nth k (shift 1 ts) NaN).
Proof. intros. unfold r_diff. apply nth_lift2. reflexivity. Qed.
Lemma gains_pos : forall ts k, ipos (rnd M) (nth k (r_gains M ts) NaN).
Proof.
  intros ts k. unfold r_gains, where0. destruct (Nat.lt_ge_cases k (length (r_diff M ts))) as [Hk|Hk].
  - rewrite nth_map_in by auto.
    rewrite nth_rdiff. set (x := nth k ts NaN). set (y := nth k (shift 1 ts) NaN). unfold fsub. destruct (nsub x y) as [a| | |]; cbn [fl].
    + unfold ngtb, nltb. destruct (rltb 0 (rnd M a)) eqn:E; intros b Eb; injection Eb as <-; [apply rltb_true in E; split; [lra|apply (r_idem _ H)]|split; [lra|apply held_0; auto]].
    + intros b Eb. cbn in Eb. injection Eb as <-. split; [lra|apply held_0; auto].
    + intros b Eb. cbn in Eb. discriminate.
    + intros b Eb. cbn in Eb. injection Eb as <-. split; [lra|apply held_0; auto].
  - rewrite nth_overflow by (rewrite map_length; auto). intros b Eb. discriminate.
Qed.
Lemma losses_pos : forall ts k, ipos (rnd M) (nth k (r_losses M ts) NaN).
Proof.
  intros ts k. unfold r_losses, where0. destruct (Nat.lt_ge_cases k (length (r_diff M ts))) as [Hk|Hk].
  - rewrite nth_map_in by auto.
    rewrite nth_rdiff. set (x := nth k ts NaN). set (y := nth k (shift 1 ts) NaN). unfold fsub. destruct (nsub x y) as [a| | |]; cbn [fl].
    + unfold nltb, nneg. destruct (rltb (rnd M a) 0) eqn:E; intros b Eb; injection Eb as <-; [apply rltb_true in E; split; [lra|apply held_opp; auto; apply (r_idem _ H)]|split; [lra|apply held_0; auto]].
    + intros b Eb. cbn in Eb. injection Eb as <-. split; [lra|apply held_0; auto].
    + intros b Eb. cbn in Eb. injection Eb as <-. split; [lra|apply held_0; auto].
    + intros b Eb. cbn in Eb. discriminate.
  - rewrite nth_overflow by (rewrite map_length; auto). intros b Eb. discriminate.
Qed.
End W.
