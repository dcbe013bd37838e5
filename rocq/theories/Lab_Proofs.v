(** Alignment of Series with strictly increasing dates. *)
From Coq Require Import Reals Lra ZArith List Arith Bool Lia Sorted.
From Verif Require Import Base Num Sums Feat_Ops Feat_Spec Feat_Proofs Feat_Model Feat_Causal_Props Lab_Model Lab_Spec.
Import ListNotations.
Open Scope R_scope.

Definition zsorted := StronglySorted Z.lt.
Lemma in_insert : forall k l x, In x (insert k l) <-> x = k \/ In x l.
Proof.
  intros k l x. induction l as [|y l IH]; cbn [insert].
  - cbn. intuition.
  - destruct (Z.ltb_spec k y); [cbn; intuition|]. destruct (Z.eqb_spec k y).
    + subst. cbn. intuition.
    + cbn [In]. rewrite IH. intuition.
Qed.
Lemma sorted_insert : forall k l, zsorted l -> zsorted (insert k l).
Proof.
  intros k l Hl. induction Hl as [|y l Hl IH Hy]; cbn [insert].
  - constructor; constructor.
  - destruct (Z.ltb_spec k y).
    + constructor; [constructor; assumption|]. constructor; [exact H|]. eapply Forall_impl; [|exact Hy]. intros; lia.
    + destruct (Z.eqb_spec k y); [subst; constructor; assumption|]. constructor; [exact IH|].
      apply Forall_forall. intros x Hx. apply in_insert in Hx as [->|Hx]; [lia|]. rewrite Forall_forall in Hy. auto.
Qed.
Lemma in_union : forall ls x, In x (union ls) <-> exists l, In l ls /\ In x l.
Proof.
  intros ls x. unfold union. rewrite <- (in_concat ls x). induction (concat ls) as [|y l IH]; cbn [fold_right]; [reflexivity|].
  rewrite in_insert, IH. cbn. intuition.
Qed.
Lemma sorted_union : forall ls, zsorted (union ls).
Proof. intros ls. unfold union. induction (concat ls); cbn [fold_right]; [constructor|]. apply sorted_insert. assumption. Qed.
Lemma sorted_same : forall l l', zsorted l -> zsorted l' -> (forall x, In x l <-> In x l') -> l = l'.
Proof.
  intros l l' Hl. revert l'. induction Hl as [|a l Hl IH Ha]; intros l' Hl' E.
  - destruct l' as [|b l']; [reflexivity|]. exfalso. apply (E b). left; reflexivity.
  - destruct Hl' as [|b l' Hl' Hb]; [exfalso; apply (E a); left; reflexivity|].
    rewrite Forall_forall in Ha, Hb.
    assert (a = b).
    { destruct (proj1 (E a) (or_introl eq_refl)) as [?|Ha']; [congruence|]. destruct (proj2 (E b) (or_introl eq_refl)) as [?|Hb']; [congruence|].
      specialize (Hb _ Ha'). specialize (Ha _ Hb'). lia. }
    subst b. f_equal. apply IH; [exact Hl'|]. intros x. split; intros Hx.
    + destruct (proj1 (E x) (or_intror Hx)) as [->|?]; [specialize (Ha _ Hx); lia|assumption].
    + destruct (proj2 (E x) (or_intror Hx)) as [->|?]; [specialize (Hb _ Hx); lia|assumption].
Qed.
Definition before (t : Z) (l : list Z) : list Z := filter (fun k => (k <=? t)%Z) l.
Lemma sorted_before : forall t l, zsorted l -> zsorted (before t l).
Proof.
  intros t l Hl. induction Hl as [|a l Hl IH Ha]; cbn; [constructor|]. destruct (a <=? t)%Z; [|exact IH].
  constructor; [exact IH|]. rewrite Forall_forall in *. intros x Hx. apply filter_In in Hx. apply Ha. apply Hx.
Qed.
Lemma before_firstn : forall t l, zsorted l -> before t l = firstn (length (before t l)) l.
Proof.
  intros t l Hl. induction Hl as [|a l Hl IH Ha]; cbn; [reflexivity|]. destruct (Z.leb_spec a t) as [H|H].
  - cbn [length firstn]. f_equal. exact IH.
  - enough (E : filter (fun k => (k <=? t)%Z) l = []) by (rewrite E; reflexivity).
    rewrite Forall_forall in Ha. clear IH Hl. induction l as [|b l IH]; cbn; [reflexivity|].
    destruct (Z.leb_spec b t); [specialize (Ha b (or_introl eq_refl)); lia|]. apply IH. intros x Hx. apply Ha. right; exact Hx.
Qed.
Lemma labels_upto : forall t s, labels (upto t s) = before t (labels s).
Proof.
  intros t s. unfold labels, upto, before. induction s as [|[k x] s IH]; cbn; [reflexivity|]. destruct (k <=? t)%Z; cbn; congruence.
Qed.
Lemma len_upto : forall t s, length (upto t s) = length (before t (labels s)).
Proof. intros t s. rewrite <- labels_upto. unfold labels. rewrite map_length. reflexivity. Qed.
Lemma upto_firstn : forall t s, dated s -> upto t s = firstn (length (before t (labels s))) s.
Proof.
  intros t s Hs. unfold dated in Hs. unfold labels. induction s as [|[k x] s IH]; cbn; [reflexivity|]. cbn in Hs. inversion Hs as [|? ? Hs' Hk]; subst.
  destruct (Z.leb_spec k t) as [H|H]; cbn [length firstn].
  - f_equal. apply IH. exact Hs'.
  - enough (E : before t (map fst s) = [] /\ upto t s = []) by (unfold before in E; destruct E as [E1 E2]; rewrite E1; unfold upto in E2; rewrite E2; reflexivity).
    rewrite Forall_forall in Hk. clear IH Hs Hs'. induction s as [|[b y] s IH]; cbn; [split; reflexivity|].
    destruct (Z.leb_spec b t); [specialize (Hk b (or_introl eq_refl)); lia|]. apply IH. intros z Hz. apply Hk. right; exact Hz.
Qed.
Lemma dated_upto : forall t s, dated s -> dated (upto t s).
Proof. intros t s Hs. unfold dated. change (map fst (upto t s)) with (labels (upto t s)). rewrite labels_upto. apply sorted_before. exact Hs. Qed.

Lemma at_label_in : forall s k x, dated s -> In (k, x) s -> at_label s k = x.
Proof.
  intros s k x Hs. unfold at_label, dated in *. induction s as [|[a y] s IH]; intros Hin; [destruct Hin|].
  cbn [find fst]. cbn in Hs. inversion Hs as [|? ? Hs' Ha]; subst. destruct Hin as [E|Hin].
  - inversion E; subst. rewrite Z.eqb_refl. reflexivity.
  - destruct (Z.eqb_spec a k) as [->|_]; [|apply IH; assumption].
    rewrite Forall_forall in Ha. specialize (Ha k (in_map fst _ _ Hin)). lia.
Qed.
Lemma at_label_out : forall s k, ~ In k (labels s) -> at_label s k = NaN.
Proof.
  intros s k. unfold at_label, labels. induction s as [|[a y] s IH]; cbn; [reflexivity|]. intros H. destruct (Z.eqb_spec a k); [tauto|]. apply IH. tauto.
Qed.
Lemma at_label_upto : forall t s k, (k <= t)%Z -> at_label (upto t s) k = at_label s k.
Proof.
  intros t s k Hk. unfold at_label, upto. induction s as [|[a y] s IH]; cbn; [reflexivity|].
  destruct (Z.leb_spec a t); cbn [find fst]; [destruct (a =? k)%Z; [reflexivity|exact IH]|].
  destruct (Z.eqb_spec a k); [lia|exact IH].
Qed.
Lemma values_reindex : forall s, dated s -> map (at_label s) (labels s) = values s.
Proof.
  intros s Hs. unfold labels, values. rewrite map_map. apply map_ext_in. intros [k x] Hin. cbn. apply at_label_in; assumption.
Qed.
Lemma ser_canon : forall s, dated s -> s = map (fun k => (k, at_label s k)) (labels s).
Proof.
  intros s Hs. unfold labels. rewrite map_map. rewrite <- (map_id s) at 1. apply map_ext_in. intros [k x] Hin. cbn. f_equal. symmetry. apply at_label_in; assumption.
Qed.

Lemma combine_map_self : forall (l : list Z) (f : Z -> num), combine l (map f l) = map (fun k => (k, f k)) l.
Proof. induction l; intros; cbn; [reflexivity|]. f_equal. apply IHl. Qed.
Lemma frame_dated : forall ss, ss <> [] -> Forall dated ss ->
  frame ss = (union (map labels ss), map (fun u => map (at_label u) (union (map labels ss))) ss).
Proof.
  intros [|s rest] Hne Hd; [congruence|]. unfold frame.
  destruct (forallb (fun u => same_labels (labels u) (labels s)) rest) eqn:E; [|reflexivity].
  rewrite forallb_forall in E.
  assert (A : forall u, In u (s :: rest) -> labels u = labels s).
  { intros u [<-|Hu]; [reflexivity|]. specialize (E u Hu). unfold same_labels in E. destruct list_eq_dec; congruence. }
  rewrite Forall_forall in Hd.
  assert (U : union (map labels (s :: rest)) = labels s).
  { apply sorted_same; [apply sorted_union|apply (Hd s (or_introl eq_refl))|]. intros x. rewrite in_union. split.
    - intros (l & Hl & Hx). apply in_map_iff in Hl as (u & <- & Hu). rewrite <- (A u Hu). exact Hx.
    - intros Hx. exists (labels s). split; [left; reflexivity|exact Hx]. }
  rewrite U. f_equal. apply map_ext_in. intros u Hu. rewrite <- (A u Hu). symmetry. apply values_reindex. apply Hd. exact Hu.
Qed.
Lemma lift2_maps : forall f (g h : Z -> num) l, lift2 f (map g l) (map h l) = map (fun k => f (g k) (h k)) l.
Proof.
  intros f g h l. apply list_ext.
  - rewrite len_lift2, !map_length. lia.
  - intros i Hi. rewrite len_lift2, !map_length in Hi.
    assert (Hi' : (i < length l)%nat) by lia. clear Hi.
    unfold lift2. rewrite (nth_indep _ NaN (f (nth 0 (map g l) NaN) (nth 0 (map h l) NaN))) by (rewrite map_length, seq_length, !map_length; lia).
    rewrite (map_nth (fun i => f (nth i (map g l) NaN) (nth i (map h l) NaN))), seq_nth by (rewrite !map_length; lia). cbn [plus].
    rewrite (nth_indep (map g l) NaN (g 0%Z)), (nth_indep (map h l) NaN (h 0%Z)), (nth_indep (map _ l) NaN (f (g 0%Z) (h 0%Z))) by (rewrite map_length; lia).
    rewrite (map_nth g), (map_nth h), (map_nth (fun k => f (g k) (h k))). reflexivity.
Qed.
Definition U2 (s u : ser) : list Z := union [labels s; labels u].
Lemma align_dated : forall f s u, dated s -> dated u -> align f s u = map (fun k => (k, f (at_label s k) (at_label u k))) (U2 s u).
Proof.
  intros f s u Hs Hu. unfold align. rewrite frame_dated; [|discriminate|repeat constructor; assumption]. cbn [map nth].
  rewrite lift2_maps, combine_map_self. reflexivity.
Qed.
Lemma labels_pairs : forall (l : list Z) (f : Z -> num), labels (map (fun k => (k, f k)) l) = l.
Proof. intros l f. unfold labels. rewrite map_map. cbn. apply map_id. Qed.
Lemma labels_align : forall f s u, dated s -> dated u -> labels (align f s u) = U2 s u.
Proof. intros f s u Hs Hu. rewrite align_dated by assumption. apply labels_pairs. Qed.
Lemma dated_align : forall f s u, dated s -> dated u -> dated (align f s u).
Proof. intros f s u Hs Hu. unfold dated. change (map fst (align f s u)) with (labels (align f s u)). rewrite labels_align by assumption. apply sorted_union. Qed.
Lemma labels_combine : forall (l : list Z) (v : list num), length v = length l -> labels (combine l v) = l.
Proof. induction l as [|a l IH]; intros [|x v] H; cbn in *; try reflexivity; try discriminate. f_equal. apply IH. lia. Qed.
Lemma values_combine : forall (l : list Z) (v : list num), length v = length l -> values (combine l v) = v.
Proof. induction l as [|a l IH]; intros [|x v] H; cbn in *; try reflexivity; try discriminate. f_equal. apply IH. lia. Qed.
Lemma len_labels : forall s, length (labels s) = length s. Proof. intros. apply map_length. Qed.
Lemma len_values : forall s, length (values s) = length s. Proof. intros. apply map_length. Qed.
Definition keeps (f : list num -> list num) : Prop := forall l, length (f l) = length l.
Lemma pref_keeps : forall f, pref1 f -> keeps f. Proof. intros f H l. apply H. Qed.
Lemma labels_on : forall f s, keeps f -> labels (on f s) = labels s.
Proof. intros f s Hf. unfold on. apply labels_combine. rewrite Hf, len_values, len_labels. reflexivity. Qed.
Lemma values_on : forall f s, keeps f -> values (on f s) = f (values s).
Proof. intros f s Hf. unfold on. apply values_combine. rewrite Hf, len_values, len_labels. reflexivity. Qed.
Lemma dated_on : forall f s, keeps f -> dated s -> dated (on f s).
Proof. intros f s Hf Hs. unfold dated. change (map fst (on f s)) with (labels (on f s)). rewrite labels_on by assumption. exact Hs. Qed.
Lemma labels_firstn : forall k s, labels (firstn k s) = firstn k (labels s). Proof. intros. unfold labels. symmetry. apply firstn_map. Qed.
Lemma values_firstn : forall k s, values (firstn k s) = firstn k (values s). Proof. intros. unfold values. symmetry. apply firstn_map. Qed.
Lemma combine_firstn' : forall k (l : list Z) (v : list num), firstn k (combine l v) = combine (firstn k l) (firstn k v).
Proof. induction k; intros [|a l] [|x v]; cbn; try reflexivity. f_equal. apply IHk. Qed.
Lemma on_upto : forall f t s, pref1 f -> dated s -> on f (upto t s) = upto t (on f s).
Proof.
  intros f t s Hf Hs. rewrite (upto_firstn t (on f s)) by (apply dated_on; [apply pref_keeps|]; assumption).
  rewrite labels_on by (apply pref_keeps; assumption). rewrite (upto_firstn t s) by assumption.
  unfold on at 1. rewrite labels_firstn, values_firstn, (proj2 (Hf _)). unfold on. symmetry. apply combine_firstn'.
Qed.
Lemma union_before : forall t ls, Forall zsorted ls -> union (map (before t) ls) = before t (union ls).
Proof.
  intros t ls Hl. apply sorted_same; [apply sorted_union|apply sorted_before, sorted_union|]. intros x.
  unfold before at 2. rewrite filter_In, !in_union. split.
  - intros (l & Hl' & Hx). apply in_map_iff in Hl' as (m & <- & Hm). unfold before in Hx. apply filter_In in Hx as [Hx Hx']. split; [exists m; tauto|assumption].
  - intros [(m & Hm & Hx) Hx']. exists (before t m). split; [apply in_map; assumption|]. unfold before. apply filter_In. tauto.
Qed.
Lemma align_upto : forall f t s u, dated s -> dated u -> align f (upto t s) (upto t u) = upto t (align f s u).
Proof.
  intros f t s u Hs Hu. rewrite !align_dated by (try apply dated_upto; assumption). unfold U2. rewrite !labels_upto.
  change [before t (labels s); before t (labels u)] with (map (before t) [labels s; labels u]).
  rewrite union_before by (repeat constructor; assumption). induction (union [labels s; labels u]) as [|k l IH]; cbn; [reflexivity|].
  destruct (Z.leb_spec k t); [|exact IH]. cbn. rewrite !at_label_upto by assumption. f_equal. exact IH.
Qed.
#[export] Hint Resolve dated_upto dated_align dated_on pref_keeps : dated.
#[export] Hint Resolve pref_map pref_roll pref_ewm pref_id : dated.
Lemma pref_shift1 : pref1 (shift 1). Proof. apply pref_shift. lia. Qed.
Lemma pref_diff1 : pref1 (diff 1). Proof. apply pref_diff. lia. Qed.
Lemma pref_pct : pref1 (fun l => map nabs (pct_change l)).
Proof.
  unfold pct_change. cbv zeta. apply (pref_comp (map nabs)); [apply pref_map|]. apply (pref_comp (map _)); [apply pref_map|].
  apply pref_lift2; [apply pref_ffill|apply (pref_comp (shift 1)); [apply pref_shift1|apply pref_ffill]].
Qed.
#[export] Hint Resolve pref_shift1 pref_diff1 pref_pct : dated.
(** results *)
Definition prefr (F : list num -> res (list num)) : Prop :=
  (exists e, forall l, F l = Raise e) \/ (exists f, pref1 f /\ forall l, F l = Ok (f l)).
Lemma prefr_rolling : forall w agg, prefr (rolling w agg).
Proof. intros w agg. unfold rolling. destruct (w <? 0)%Z; [left; eexists; reflexivity|right; eexists; split; [apply pref_roll|reflexivity]]. Qed.
Lemma prefr_alpha : forall a, prefr (ewm_alpha a 0).
Proof. intros a. unfold ewm_alpha. destruct (_ && _); [right; eexists; split; [apply pref_ewm|reflexivity]|left; eexists; reflexivity]. Qed.
Lemma prefr_ewm : forall w, prefr (fun l => ewm_mean l w).
Proof. intros w. unfold ewm_mean, ewm_span. destruct (rltb w 1); [left; eexists; reflexivity|right; eexists; split; [apply pref_ewm|reflexivity]]. Qed.
Lemma pref_ext : forall f g, (forall l, f l = g l) -> pref1 g -> pref1 f.
Proof. intros f g E Hg l. rewrite E. destruct (Hg l) as [A B]. split; [exact A|]. intros k. rewrite E. apply B. Qed.
Lemma prefr_causal : forall F, (exists e, forall l, F l = Raise e) \/ (exists f, forall l, F l = Ok (f l)) -> causal1 F -> prefr F.
Proof.
  intros F [H|[f Hf]] Hc; [left; exact H|]. right. exists f. split; [|exact Hf]. intros l. destruct (Hc l (f l) (Hf l)) as [A B]. split; [exact A|].
  intros k. specialize (B k). rewrite Hf in B. congruence.
Qed.
Lemma prefr_measure : forall w, prefr (fun l => roll_measure l w).
Proof.
  intros w. apply prefr_causal.
  - unfold roll_measure, rolling_cov. destruct (w <? 0)%Z; [left; eexists; reflexivity|right; eexists; intros l; reflexivity].
  - apply (C53_micro w true (fun x => x)).
Qed.
Lemma on_res_raise : forall F e s, (forall l, F l = Raise e) -> on_res F s = Raise e.
Proof. intros F e s H. unfold on_res. rewrite H. reflexivity. Qed.
Lemma on_res_pure : forall F f s, (forall l, F l = Ok (f l)) -> on_res F s = Ok (on f s).
Proof. intros F f s H. unfold on_res. rewrite H. reflexivity. Qed.

(** three columns *)
Definition U3 (s u v : ser) : list Z := union [labels s; labels u; labels v].
Definition row3 (s u v : ser) : ser :=
  let '(ix, cols) := frame [s; u; v] in
  combine ix (map (fun i => row_max (nth i (nth 0 cols []) NaN) (nth i (nth 1 cols []) NaN) (nth i (nth 2 cols []) NaN)) (seq 0 (length ix))).
Lemma map_seq_nth : forall (l : list Z) (F : Z -> num), map (fun i => F (nth i l 0%Z)) (seq 0 (length l)) = map F l.
Proof.
  intros l F. transitivity (map F (map (fun i => nth i l 0%Z) (seq 0 (length l)))); [rewrite map_map; reflexivity|]. f_equal.
  induction l as [|a l IH]; [reflexivity|]. cbn [length seq map nth]. f_equal. rewrite <- seq_shift, map_map. exact IH.
Qed.
Lemma nth_map_lab : forall (f : Z -> num) l i, (i < length l)%nat -> nth i (map f l) NaN = f (nth i l 0%Z).
Proof. intros f l i Hi. rewrite (nth_indep _ NaN (f 0%Z)) by (rewrite map_length; exact Hi). apply map_nth. Qed.
Lemma row3_dated : forall s u v, dated s -> dated u -> dated v ->
  row3 s u v = map (fun k => (k, row_max (at_label s k) (at_label u k) (at_label v k))) (U3 s u v).
Proof.
  intros s u v Hs Hu Hv. unfold row3. rewrite frame_dated; [|discriminate|repeat constructor; assumption]. cbn [map nth]. fold (U3 s u v).
  rewrite <- combine_map_self. f_equal. rewrite <- (map_seq_nth (U3 s u v) (fun k => row_max (at_label s k) (at_label u k) (at_label v k))). apply map_ext_in. intros i Hi. apply in_seq in Hi.
  rewrite !nth_map_lab by lia. reflexivity.
Qed.
Lemma labels_row3 : forall s u v, dated s -> dated u -> dated v -> labels (row3 s u v) = U3 s u v.
Proof. intros. rewrite row3_dated by assumption. apply labels_pairs. Qed.
Lemma dated_row3 : forall s u v, dated s -> dated u -> dated v -> dated (row3 s u v).
Proof. intros s u v Hs Hu Hv. unfold dated. change (map fst (row3 s u v)) with (labels (row3 s u v)). rewrite labels_row3 by assumption. apply sorted_union. Qed.
Lemma row3_upto : forall t s u v, dated s -> dated u -> dated v -> row3 (upto t s) (upto t u) (upto t v) = upto t (row3 s u v).
Proof.
  intros t s u v Hs Hu Hv. rewrite !row3_dated by (try apply dated_upto; assumption). unfold U3. rewrite !labels_upto.
  change [before t (labels s); before t (labels u); before t (labels v)] with (map (before t) [labels s; labels u; labels v]).
  rewrite union_before by (repeat constructor; assumption). induction (union [labels s; labels u; labels v]) as [|k l IH]; cbn; [reflexivity|].
  destruct (Z.leb_spec k t); [|exact IH]. cbn. rewrite !at_label_upto by assumption. f_equal. exact IH.
Qed.
#[export] Hint Resolve dated_row3 : dated.
Lemma tr_row3 : forall h l c, l_true_range h l c = row3 (align nsub h l) (on (map nabs) (align nsub h (on (shift 1) c))) (on (map nabs) (align nsub l (on (shift 1) c))).
Proof. reflexivity. Qed.

(** update of Series with the same dates *)
Lemma same_labels_refl : forall l, same_labels l l = true. Proof. intros l. unfold same_labels. destruct list_eq_dec; congruence. Qed.
Lemma U2_same : forall s u, dated s -> labels u = labels s -> U2 s u = labels s.
Proof.
  intros s u Hs E. apply sorted_same; [apply sorted_union|exact Hs|]. intros x. unfold U2. rewrite in_union, E. split.
  - intros (l & [<-|[<-|[]]] & Hx); exact Hx.
  - intros Hx. exists (labels s). split; [left; reflexivity|exact Hx].
Qed.
Lemma update_align : forall f s u, dated s -> dated u -> labels u = labels s -> update f s u = align f s u.
Proof. intros f s u Hs Hu E. unfold update. rewrite labels_align, U2_same by assumption. rewrite same_labels_refl. reflexivity. Qed.

Ltac dat := first [ assumption | apply dated_upto; dat | apply dated_align; dat | apply dated_row3; dat | apply dated_on; [dkeep | dat] ]
with dkeep := first [ assumption | apply pref_keeps; dpref ]
with dpref := first [ assumption | apply pref_map | apply pref_shift1 | apply pref_diff1 | apply pref_pct | apply pref_roll ].
Ltac push_upto := repeat first [ rewrite on_upto by first [dpref | dat] | rewrite align_upto by dat | rewrite row3_upto by dat ].

Lemma in_U2 : forall s u x, In x (U2 s u) <-> In x (labels s) \/ In x (labels u).
Proof. intros s u x. unfold U2. rewrite in_union. cbn. split; [intros (l & [<-|[<-|[]]] & H); tauto|intros [H|H]; eauto]. Qed.
Lemma in_U3 : forall s u v x, In x (U3 s u v) <-> In x (labels s) \/ In x (labels u) \/ In x (labels v).
Proof. intros s u v x. unfold U3. rewrite in_union. cbn. split; [intros (l & [<-|[<-|[<-|[]]]] & H); tauto|intros [H|[H|H]]; eauto 6]. Qed.

(** one common index *)
Lemma series_labels : forall ix v, length v = length ix -> labels (series ix v) = ix. Proof. exact labels_combine. Qed.
Lemma series_values : forall ix v, length v = length ix -> values (series ix v) = v. Proof. exact values_combine. Qed.
Lemma on_series : forall f ix v, length v = length ix -> on f (series ix v) = series ix (f v).
Proof. intros f ix v H. unfold on. rewrite series_labels, series_values by assumption. reflexivity. Qed.
Lemma on_res_series : forall F ix v, length v = length ix -> on_res F (series ix v) = with_dates ix (F v).
Proof. intros F ix v H. unfold on_res. rewrite series_labels, series_values by assumption. destruct (F v); reflexivity. Qed.
Lemma align_series : forall f ix v u, length v = length ix -> length u = length ix -> align f (series ix v) (series ix u) = series ix (lift2 f v u).
Proof.
  intros f ix v u Hv Hu. unfold align, frame. cbn [forallb]. rewrite !series_labels, same_labels_refl by assumption. cbn [andb map nth].
  rewrite !series_values by assumption. reflexivity.
Qed.
Lemma update_series : forall f ix v u, length v = length ix -> length u = length ix -> update f (series ix v) (series ix u) = series ix (lift2 f v u).
Proof.
  intros f ix v u Hv Hu. unfold update. rewrite align_series by assumption. rewrite !series_labels by (try rewrite len_lift2; lia). rewrite same_labels_refl. reflexivity.
Qed.
Lemma row3_series : forall ix a b c, length a = length ix -> length b = length ix -> length c = length ix ->
  row3 (series ix a) (series ix b) (series ix c)
  = series ix (map (fun i => row_max (nth i a NaN) (nth i b NaN) (nth i c NaN)) (seq 0 (Nat.max (length a) (Nat.max (length b) (length c))))).
Proof.
  intros ix a b c Ha Hb Hc. unfold row3, frame. cbn [forallb]. rewrite !series_labels, same_labels_refl by assumption. cbn [andb map nth].
  rewrite !series_values by assumption. unfold series. f_equal. f_equal. f_equal. lia.
Qed.

(** values at a date *)
Lemma at_pairs : forall (U : list Z) (f : Z -> num) k, In k U -> at_label (map (fun k => (k, f k)) U) k = f k.
Proof.
  intros U f k. unfold at_label. induction U as [|a U IH]; [intros []|]. cbn [map find fst]. destruct (Z.eqb_spec a k) as [->|N]; [reflexivity|].
  intros [E|H]; [congruence|apply IH; exact H].
Qed.
Lemma at_align : forall f s u k, dated s -> dated u -> f NaN NaN = NaN -> at_label (align f s u) k = f (at_label s k) (at_label u k).
Proof.
  intros f s u k Hs Hu E. destruct (in_dec Z.eq_dec k (U2 s u)) as [H|H].
  - rewrite align_dated by assumption. apply (at_pairs (U2 s u) (fun k => f (at_label s k) (at_label u k))). exact H.
  - rewrite (at_label_out (align f s u)) by (rewrite labels_align; assumption). rewrite in_U2 in H. rewrite !at_label_out by tauto. symmetry. exact E.
Qed.
Lemma at_on_map : forall g s k, dated s -> g NaN = NaN -> at_label (on (map g) s) k = g (at_label s k).
Proof.
  intros g s k Hs E. unfold on, at_label, labels, values. rewrite map_map. induction s as [|[a x] s IH]; cbn; [symmetry; exact E|].
  destruct (a =? k)%Z; [reflexivity|]. apply IH. unfold dated in Hs. cbn in Hs. inversion Hs; assumption.
Qed.
Lemma at_on_out : forall f s k, keeps f -> ~ In k (labels s) -> at_label (on f s) k = NaN.
Proof. intros f s k Hf H. apply at_label_out. rewrite labels_on by assumption. exact H. Qed.
Lemma ser_is : forall U s, dated s -> labels s = U -> s = series U (map (at_label s) U).
Proof. intros U s Hs <-. unfold series. rewrite combine_map_self. apply ser_canon. exact Hs. Qed.
Lemma written_is : forall U s v, dated s -> written_out U s v -> v = map (at_label s) U.
Proof.
  intros U s v Hs [L H]. apply list_ext; [rewrite map_length; exact L|]. intros i Hi. rewrite L in Hi. rewrite nth_map_lab by exact Hi.
  destruct (H i Hi) as [H1 H2]. destruct (in_dec Z.eq_dec (nth i U 0%Z) (labels s)) as [Hin|Hout].
  - apply in_map_iff in Hin as ([k x] & E & Hin). cbn in E. subst k. rewrite (H1 x Hin). symmetry. apply at_label_in; assumption.
  - rewrite at_label_out by exact Hout. apply H2. intros x Hx. apply Hout. apply (in_map fst _ _ Hx).
Qed.
Lemma on_res_is : forall F U s, dated s -> labels s = U -> on_res F s = with_dates U (F (map (at_label s) U)).
Proof. intros F U s Hs E. rewrite (ser_is U s Hs E) at 1. apply on_res_series. rewrite map_length. reflexivity. Qed.
Lemma strict_binop : nsub NaN NaN = NaN /\ nadd NaN NaN = NaN /\ nmul NaN NaN = NaN /\ ndiv NaN NaN = NaN /\ logratio NaN NaN = NaN.
Proof. repeat split; reflexivity. Qed.
