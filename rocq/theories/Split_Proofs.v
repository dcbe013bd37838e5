(** Lemmas about the splitter models. *)
From Coq Require Import List ZArith Bool Arith Lia Sorted ZifyBool.
From Verif Require Import Base Split_Model.
Import ListNotations.
Open Scope Z_scope.

(** group value of sample [i] *)
Definition gat (g : groups) (i : nat) : Z := nth i (g_val g) 0.

Lemma getitem_ok : forall g i v, getitem g i = Ok v -> (i < length (g_val g))%nat /\ v = gat g i.
Proof.
  unfold getitem, gat; intros g i v H.
  destruct (nth_error (g_val g) i) eqn:E; [|discriminate].
  injection H as <-. split.
  - apply nth_error_Some; congruence.
  - symmetry; apply nth_error_nth; auto.
Qed.

Lemma getitem_in : forall g i, (i < length (g_val g))%nat -> getitem g i = Ok (gat g i).
Proof.
  unfold getitem, gat; intros g i H.
  rewrite (nth_error_nth' _ 0 H). reflexivity.
Qed.

(** sorted lists *)
Definition nondecr (l : list Z) : Prop :=
  forall i j, (i <= j)%nat -> (j < length l)%nat -> nth i l 0 <= nth j l 0.

Lemma sortedb_spec : forall l, sortedb l = true <-> nondecr l.
Proof.
  induction l as [|a l IH].
  - split; auto. intros _ i j _ Hj; simpl in Hj; lia.
  - destruct l as [|b l].
    + split; auto. intros _ i j Hij Hj; simpl in Hj.
      assert (i = 0 /\ j = 0)%nat as [-> ->] by lia. lia.
    + change (sortedb (a :: b :: l)) with ((a <=? b) && sortedb (b :: l)).
      rewrite andb_true_iff, IH. split.
      * intros [H1 H2] i j Hij Hj.
        destruct j; [assert (i = 0)%nat as -> by lia; simpl; lia|].
        destruct i.
        -- assert (nth 0 (b :: l) 0 <= nth j (b :: l) 0) by (apply H2; simpl in *; lia).
           simpl in *. lia.
        -- apply (H2 i j); simpl in *; lia.
      * intros H; split.
        -- assert (nth 0 (a :: b :: l) 0 <= nth 1 (a :: b :: l) 0) by (apply H; simpl; lia).
           simpl in *; lia.
        -- intros i j Hij Hj. apply (H (S i) (S j)); simpl in *; lia.
Qed.

(** usort *)
Lemma In_insert_uniq : forall a l x, In x (insert_uniq a l) <-> x = a \/ In x l.
Proof.
  induction l as [|b l IH]; simpl; intros x.
  - intuition.
  - destruct (Nat.ltb_spec a b); simpl; [intuition|].
    destruct (Nat.eqb_spec a b); simpl; [subst; intuition|].
    rewrite IH; intuition.
Qed.

Lemma In_usort : forall l x, In x (usort l) <-> In x l.
Proof.
  induction l as [|a l IH]; simpl; intros x; [tauto|].
  rewrite In_insert_uniq, IH; intuition.
Qed.

Lemma insert_uniq_sorted : forall a l, StronglySorted lt l -> StronglySorted lt (insert_uniq a l).
Proof.
  induction l as [|b l IH]; simpl; intros H.
  - constructor; constructor.
  - apply StronglySorted_inv in H as [H1 H2].
    destruct (Nat.ltb_spec a b).
    + constructor; [constructor; auto|].
      constructor; auto. rewrite Forall_forall in *; intros x Hx; specialize (H2 x Hx); lia.
    + destruct (Nat.eqb_spec a b); [constructor; auto|].
      constructor; auto.
      rewrite Forall_forall in *; intros x Hx. apply In_insert_uniq in Hx as [->|Hx]; [lia|auto].
Qed.

Lemma usort_sorted : forall l, StronglySorted lt (usort l).
Proof. induction l; simpl; [constructor|apply insert_uniq_sorted; auto]. Qed.

Lemma usort_id : forall l, StronglySorted lt l -> usort l = l.
Proof.
  induction l as [|a l IH]; simpl; intros H; auto.
  apply StronglySorted_inv in H as [H1 H2]. rewrite IH by auto.
  destruct l as [|b l]; simpl; auto.
  inversion H2; subst. destruct (Nat.ltb_spec a b); [auto|lia].
Qed.

Lemma filter_sorted : forall f l, StronglySorted lt l -> StronglySorted lt (filter f l).
Proof.
  induction l as [|a l IH]; simpl; intros H; auto.
  apply StronglySorted_inv in H as [H1 H2].
  destruct (f a); auto. constructor; auto.
  rewrite Forall_forall in *; intros x Hx; apply filter_In in Hx as [Hx _]; auto.
Qed.

Lemma seq_sorted : forall n a, StronglySorted lt (seq a n).
Proof.
  induction n; simpl; intros a; constructor; auto.
  rewrite Forall_forall; intros x Hx; apply in_seq in Hx; lia.
Qed.

Lemma sorted_NoDup : forall l, StronglySorted lt l -> NoDup l.
Proof.
  induction 1; constructor; auto.
  intros Hin. rewrite Forall_forall in H0. specialize (H0 _ Hin). lia.
Qed.

Lemma sorted_ext : forall l1 l2, StronglySorted lt l1 -> StronglySorted lt l2 ->
  (forall x, In x l1 <-> In x l2) -> l1 = l2.
Proof.
  induction l1 as [|a l1 IH]; intros l2 H1 H2 H.
  - destruct l2 as [|b l2]; auto. exfalso; apply (proj2 (H b)); simpl; auto.
  - destruct l2 as [|b l2]; [exfalso; apply (proj1 (H a)); simpl; auto|].
    apply StronglySorted_inv in H1 as [H1 F1]. apply StronglySorted_inv in H2 as [H2 F2].
    rewrite Forall_forall in F1, F2.
    assert (a = b).
    { destruct (proj1 (H a) (or_introl eq_refl)) as [|Ha]; auto.
      destruct (proj2 (H b) (or_introl eq_refl)) as [|Hb]; auto.
      specialize (F1 _ Hb); specialize (F2 _ Ha); lia. }
    subst b. f_equal. apply IH; auto. intros x; split; intros Hx.
    + destruct (proj1 (H x) (or_intror Hx)); auto. subst; specialize (F1 _ Hx); lia.
    + destruct (proj2 (H x) (or_intror Hx)); auto. subst; specialize (F2 _ Hx); lia.
Qed.

Lemma memb_In : forall i l, memb i l = true <-> In i l.
Proof.
  unfold memb; intros; rewrite existsb_exists; split.
  - intros [x [H1 H2]]; apply Nat.eqb_eq in H2; subst; auto.
  - intros H; exists i; split; auto; apply Nat.eqb_refl.
Qed.

Lemma In_setdiff1d : forall a b i, In i (setdiff1d a b) <-> In i a /\ ~ In i b.
Proof.
  unfold setdiff1d; intros. rewrite filter_In, In_usort, negb_true_iff.
  rewrite <- (memb_In i b). destruct (memb i b); intuition; discriminate.
Qed.

Lemma setdiff1d_sorted : forall a b, StronglySorted lt (setdiff1d a b).
Proof. intros; apply filter_sorted, usort_sorted. Qed.

(** mask_select on [seq 0 n] *)
Lemma mask_aux : forall (p : Z -> bool) l a,
  map fst (filter (fun q => p (snd q)) (combine (seq a (length l)) l))
  = filter (fun i => p (nth (i - a) l 0)) (seq a (length l)).
Proof.
  induction l as [|v l IH]; simpl; intros a; auto.
  rewrite Nat.sub_diag.
  assert (E : filter (fun i => p (nth (i - a) (v :: l) 0)) (seq (S a) (length l))
              = filter (fun i => p (nth (i - S a) l 0)) (seq (S a) (length l))).
  { apply filter_ext_in; intros i Hi; apply in_seq in Hi.
    replace (i - a)%nat with (S (i - S a)) by lia. reflexivity. }
  simpl in E. rewrite E.
  destruct (p v); simpl; rewrite IH; reflexivity.
Qed.

Lemma mask_select_seq : forall n g p r,
  mask_select (seq 0 n) g p = Ok r <->
  length (g_val g) = n /\ r = filter (fun i => p (gat g i)) (seq 0 n).
Proof.
  intros n g p r. unfold mask_select. rewrite seq_length.
  destruct (Nat.eqb_spec (length (g_val g)) n) as [E|E].
  - rewrite <- E, mask_aux.
    assert (F : filter (fun i => p (nth (i - 0) (g_val g) 0)) (seq 0 (length (g_val g)))
               = filter (fun i => p (gat g i)) (seq 0 (length (g_val g)))).
    { apply filter_ext_in; intros i _. rewrite Nat.sub_0_r; reflexivity. }
    rewrite F. split; [intros H; injection H as <-; auto|intros [_ ->]; auto].
  - split; [discriminate|intros [H _]; contradiction].
Qed.

(** max / min of a selection *)
Lemma zmax_list_spec : forall l v, (zmax_list v l = v \/ In (zmax_list v l) l) /\
  v <= zmax_list v l /\ (forall x, In x l -> x <= zmax_list v l).
Proof.
  induction l as [|a l IH]; simpl; intros v.
  - unfold zmax_list; simpl; split; auto. split; [lia|tauto].
  - specialize (IH (Z.max v a)). change (zmax_list v (a :: l)) with (zmax_list (Z.max v a) l).
    destruct IH as [[H1|H1] [H2 H3]].
    + split; [destruct (Z.max_spec v a) as [[? E]|[? E]]; [right; simpl; left|left]; congruence|].
      split; [lia|]. intros x [<-|Hx]; [lia|auto].
    + split; [auto|]. split; [lia|]. intros x [<-|Hx]; [lia|auto].
Qed.

Lemma zmin_list_spec : forall l v, (zmin_list v l = v \/ In (zmin_list v l) l) /\
  zmin_list v l <= v /\ (forall x, In x l -> zmin_list v l <= x).
Proof.
  induction l as [|a l IH]; simpl; intros v.
  - unfold zmin_list; simpl; split; auto. split; [lia|tauto].
  - specialize (IH (Z.min v a)). change (zmin_list v (a :: l)) with (zmin_list (Z.min v a) l).
    destruct IH as [[H1|H1] [H2 H3]].
    + split; [destruct (Z.min_spec v a) as [[? E]|[? E]]; [left|right; simpl; left]; congruence|].
      split; [lia|]. intros x [<-|Hx]; [lia|auto].
    + split; [auto|]. split; [lia|]. intros x [<-|Hx]; [lia|auto].
Qed.

Lemma mapM_getitem : forall g ix vs, mapM (getitem g) ix = Ok vs ->
  vs = map (gat g) ix /\ (forall i, In i ix -> (i < length (g_val g))%nat).
Proof.
  induction ix as [|i ix IH]; simpl; intros vs H.
  - injection H as <-; split; auto; tauto.
  - apply bind_ok in H as [v [Hv H]]. apply bind_ok in H as [vs' [Hvs H]].
    injection H as <-. apply getitem_ok in Hv as [Hi ->]. apply IH in Hvs as [-> Hin].
    split; auto. intros j [<-|Hj]; auto.
Qed.

Lemma mapM_getitem_in : forall g ix, (forall i, In i ix -> (i < length (g_val g))%nat) ->
  mapM (getitem g) ix = Ok (map (gat g) ix).
Proof. intros; apply mapM_ok_intro; intros; apply getitem_in; auto. Qed.

Lemma sel_max_spec : forall g ix o, sel_max g ix = Ok o ->
  match o with
  | None => ix = [] /\ g_kind g <> ArrInt
  | Some m => (exists j, In j ix /\ gat g j = m) /\ (forall j, In j ix -> gat g j <= m)
  end.
Proof.
  unfold sel_max; intros g ix o H. apply bind_ok in H as [vs [Hvs H]].
  apply mapM_getitem in Hvs as [-> Hin].
  destruct ix as [|i ix]; simpl in H.
  - destruct (g_kind g); try discriminate; injection H as <-; split; congruence.
  - injection H as <-.
    destruct (zmax_list_spec (map (gat g) ix) (gat g i)) as [H1 [H2 H3]]. split.
    + destruct H1 as [H1|H1].
      * exists i; simpl; auto.
      * apply in_map_iff in H1 as [j [E Hj]]. exists j; simpl; auto.
    + intros j [<-|Hj]; auto. apply H3, in_map, Hj.
Qed.

Lemma sel_min_spec : forall g ix o, sel_min g ix = Ok o ->
  match o with
  | None => ix = [] /\ g_kind g <> ArrInt
  | Some m => (exists j, In j ix /\ gat g j = m) /\ (forall j, In j ix -> m <= gat g j)
  end.
Proof.
  unfold sel_min; intros g ix o H. apply bind_ok in H as [vs [Hvs H]].
  apply mapM_getitem in Hvs as [-> Hin].
  destruct ix as [|i ix]; simpl in H.
  - destruct (g_kind g); try discriminate; injection H as <-; split; congruence.
  - injection H as <-.
    destruct (zmin_list_spec (map (gat g) ix) (gat g i)) as [H1 [H2 H3]]. split.
    + destruct H1 as [H1|H1].
      * exists i; simpl; auto.
      * apply in_map_iff in H1 as [j [E Hj]]. exists j; simpl; auto.
    + intros j [<-|Hj]; auto. apply H3, in_map, Hj.
Qed.

(** the numeric value of a period *)
Definition dval (d : delta) : Z := match d with DInt a => a | DTd a => a end.

Lemma plus_delta_ok : forall k v d r, plus_delta k v d = Ok r -> r = v + dval d.
Proof. intros k v [a|a] r; unfold plus_delta; destruct (is_time k); intros H; try discriminate;
  injection H as <-; reflexivity. Qed.

Lemma plus_delta_o_some : forall k v d r, plus_delta_o k (Some v) d = Ok r -> r = Some (v + dval d).
Proof.
  unfold plus_delta_o; intros k v d r H. apply bind_ok in H as [y [H1 H]].
  apply plus_delta_ok in H1. injection H as <-. congruence.
Qed.

Lemma plus_delta_o_none : forall k d r, plus_delta_o k None d = Ok r -> r = None.
Proof. unfold plus_delta_o; intros k d r H. apply bind_ok in H as [y [H1 H]]. congruence. Qed.

Lemma dval_neg : forall d, dval (neg_delta d) = - dval d.
Proof. destruct d; reflexivity. Qed.

Lemma validate_pe_ok : forall g d u, validate_purge_embargo_inputs g d = Ok u ->
  0 <= dval d /\ nondecr (g_val g).
Proof.
  unfold validate_purge_embargo_inputs; intros g d u H.
  destruct d as [a|a]; destruct (g_kind g); try discriminate;
  (destruct (Z.ltb_spec a 0); [discriminate|]; simpl;
   destruct (sortedb (g_val g)) eqn:E; [|discriminate]; apply sortedb_spec in E; auto).
Qed.

(** ** purge / embargo *)
Lemma purge_ok : forall train test n g d r,
  purge train test (seq 0 n) g d = Ok r ->
  0 <= dval d /\ nondecr (g_val g) /\ length (g_val g) = n /\ r <> [] /\ StronglySorted lt r /\
  (test <> [] -> exists mx,
     (exists j, In j test /\ gat g j = mx) /\ (forall j, In j test -> gat g j <= mx) /\
     forall i, In i r <-> In i train /\ ~ ((i < n)%nat /\ mx < gat g i <= mx + dval d)) /\
  (test = [] -> g_kind g <> ArrInt /\ forall i, In i r <-> In i train).
Proof.
  unfold purge; intros train test n g d r H.
  apply bind_ok in H as [u [Hv H]]. apply validate_pe_ok in Hv as [Hd Hs].
  apply bind_ok in H as [mx [Hmx H]]. apply sel_max_spec in Hmx.
  apply bind_ok in H as [hi [Hhi H]].
  apply bind_ok in H as [pg [Hpg H]]. apply mask_select_seq in Hpg as [Hn ->].
  cbv zeta in H.
  destruct (setdiff1d train _) eqn:E; [discriminate|]. rewrite <- E in H.
  match type of H with Ok ?a = Ok r => assert (Hr : r = a) by congruence end. clear H.
  assert (Hmem : forall i, In i r <-> In i train /\
     ~ In i (filter (fun i => cmp_o Z.leb (gat g i) hi && cmp_o Z.gtb (gat g i) mx) (seq 0 n))).
  { intros i; subst r. rewrite !In_setdiff1d. tauto. }
  split; [auto|]. split; [auto|]. split; [auto|].
  split.
  { assert (In n0 r). { apply Hmem. rewrite <- In_setdiff1d, E. simpl; auto. }
    destruct r; [contradiction|congruence]. }
  split; [subst r; apply setdiff1d_sorted|].
  destruct mx as [m|].
  - apply plus_delta_o_some in Hhi; subst hi. destruct Hmx as [Hex Hall].
    split.
    + intros _. exists m; split; [auto|]; split; [auto|]. intros i. rewrite Hmem, filter_In, in_seq.
      unfold cmp_o. rewrite andb_true_iff. intuition lia.
    + intros ->. destruct Hex as [j [[] _]].
  - destruct Hmx as [-> Hk]. split; [congruence|]. intros _. split; [auto|].
    intros i. rewrite Hmem, filter_In. apply plus_delta_o_none in Hhi; subst hi. simpl.
    intuition discriminate.
Qed.

Lemma embargo_ok : forall train test n g d r,
  embargo train test (seq 0 n) g d = Ok r ->
  0 <= dval d /\ nondecr (g_val g) /\ length (g_val g) = n /\ r <> [] /\ StronglySorted lt r /\
  (test <> [] -> exists mn,
     (exists j, In j test /\ gat g j = mn) /\ (forall j, In j test -> mn <= gat g j) /\
     forall i, In i r <-> In i train /\ ~ ((i < n)%nat /\ mn - dval d <= gat g i < mn)) /\
  (test = [] -> g_kind g <> ArrInt /\ forall i, In i r <-> In i train).
Proof.
  unfold embargo; intros train test n g d r H.
  apply bind_ok in H as [u [Hv H]]. apply validate_pe_ok in Hv as [Hd Hs].
  apply bind_ok in H as [mx [Hmx H]]. apply sel_min_spec in Hmx.
  apply bind_ok in H as [hi [Hhi H]].
  apply bind_ok in H as [pg [Hpg H]]. apply mask_select_seq in Hpg as [Hn ->].
  cbv zeta in H.
  destruct (setdiff1d train _) eqn:E; [discriminate|]. rewrite <- E in H.
  match type of H with Ok ?a = Ok r => assert (Hr : r = a) by congruence end. clear H.
  assert (Hmem : forall i, In i r <-> In i train /\
     ~ In i (filter (fun i => cmp_o Z.geb (gat g i) hi && cmp_o Z.ltb (gat g i) mx) (seq 0 n))).
  { intros i; subst r. rewrite !In_setdiff1d. tauto. }
  split; [auto|]. split; [auto|]. split; [auto|].
  split. { rewrite Hr, E; congruence. }
  split; [subst r; apply setdiff1d_sorted|].
  destruct mx as [m|].
  - apply plus_delta_o_some in Hhi; subst hi. destruct Hmx as [Hex Hall].
    rewrite dval_neg in *.
    split.
    + intros _. exists m; split; [auto|]; split; [auto|]. intros i. rewrite Hmem, filter_In, in_seq.
      unfold cmp_o. rewrite andb_true_iff. intuition lia.
    + intros ->. destruct Hex as [j [[] _]].
  - destruct Hmx as [-> Hk]. split; [congruence|]. intros _. split; [auto|].
    intros i. rewrite Hmem, filter_In. apply plus_delta_o_none in Hhi; subst hi. simpl.
    intuition discriminate.
Qed.
