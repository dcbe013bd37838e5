(** Lemmas about WalkForward. *)
From Coq Require Import List ZArith Bool Arith Lia Sorted ZifyBool.
From Verif Require Import Base Split_Model Split_Proofs.
Import ListNotations.
Open Scope Z_scope.

(** ** searchsorted *)
Lemma filter_len_le : forall A (f : A -> bool) l, (length (filter f l) <= length l)%nat.
Proof. induction l; simpl; auto. destruct (f a); simpl; lia. Qed.

Lemma count_prefix : forall (f : Z -> bool) l,
  (forall i j, (i <= j)%nat -> (j < length l)%nat -> f (nth j l 0) = true -> f (nth i l 0) = true) ->
  forall i, (i < length l)%nat -> (f (nth i l 0) = true <-> (i < length (filter f l))%nat).
Proof.
  induction l as [|a l IH]; simpl; intros Hm i Hi; [lia|].
  assert (Hm' : forall i j, (i <= j)%nat -> (j < length l)%nat -> f (nth j l 0) = true -> f (nth i l 0) = true).
  { intros i0 j0 H1 H2 H3. apply (Hm (S i0) (S j0)); simpl; auto; lia. }
  destruct (f a) eqn:E; simpl.
  - destruct i; [split; auto; lia|]. rewrite (IH Hm' i) by lia. lia.
  - assert (Hnone : filter f l = []).
    { destruct (filter f l) as [|b t] eqn:F; auto.
      assert (In b (filter f l)) by (rewrite F; simpl; auto). apply filter_In in H as [H1 H2].
      apply (In_nth _ _ 0) in H1 as [j [J1 J2]]. specialize (Hm 0%nat (S j)). simpl in Hm.
      rewrite J2 in Hm. rewrite Hm in E; auto; lia || congruence. }
    rewrite Hnone. simpl. destruct i; [split; [congruence|lia]|].
    rewrite (IH Hm' i) by lia. rewrite Hnone. simpl. lia.
Qed.

Lemma ss_left_spec : forall g v, nondecr (g_val g) -> forall i, (i < length (g_val g))%nat ->
  (gat g i < v <-> (i < ss_left g v)%nat).
Proof.
  intros g v Hs i Hi. unfold ss_left, gat.
  rewrite <- (count_prefix (fun x => x <? v)); [lia| |auto].
  intros a b Hab Hb H. specialize (Hs a b Hab Hb). lia.
Qed.

Lemma ss_right_spec : forall g v, nondecr (g_val g) -> forall i, (i < length (g_val g))%nat ->
  (gat g i <= v <-> (i < ss_right g v)%nat).
Proof.
  intros g v Hs i Hi. unfold ss_right, gat.
  rewrite <- (count_prefix (fun x => x <=? v)); [lia| |auto].
  intros a b Hab Hb H. specialize (Hs a b Hab Hb). lia.
Qed.

Lemma ss_left_le : forall g v, (ss_left g v <= length (g_val g))%nat.
Proof. intros; apply filter_len_le. Qed.
Lemma ss_right_le : forall g v, (ss_right g v <= length (g_val g))%nat.
Proof. intros; apply filter_len_le. Qed.

(** first element at least v *)
Lemma get_ss_left : forall g v, nondecr (g_val g) ->
  (exists i, (i < length (g_val g))%nat /\ v <= gat g i) ->
  exists i, getitem g (ss_left g v) = Ok (gat g i) /\ (i < length (g_val g))%nat /\ v <= gat g i /\
    (forall k, (k < length (g_val g))%nat -> v <= gat g k -> gat g i <= gat g k).
Proof.
  intros g v Hs [i [Hi Hv]]. assert (Hlt : (ss_left g v < length (g_val g))%nat).
  { destruct (Nat.lt_ge_cases i (ss_left g v)) as [H|H]; [apply ss_left_spec in H; auto; lia|lia]. }
  exists (ss_left g v). split; [apply getitem_in; auto|]. split; auto. split.
  - destruct (Z_lt_le_dec (gat g (ss_left g v)) v) as [H|H]; auto. apply ss_left_spec in H; auto. lia.
  - intros k Hk Hv'. apply Hs; auto.
    destruct (Nat.lt_ge_cases k (ss_left g v)) as [H|H]; auto. apply ss_left_spec in H; auto. lia.
Qed.

Lemma get_ss_left_present : forall g v i, nondecr (g_val g) -> (i < length (g_val g))%nat -> gat g i = v ->
  getitem g (ss_left g v) = Ok v.
Proof.
  intros g v i Hs Hi Hv. destruct (get_ss_left g v Hs) as [k [E [Hk [H1 H2]]]].
  { exists i; split; auto; lia. }
  rewrite E. f_equal. specialize (H2 i Hi). lia.
Qed.

Lemma get_ss_right : forall g v, nondecr (g_val g) ->
  (exists i, (i < length (g_val g))%nat /\ v < gat g i) ->
  exists i, getitem g (ss_right g v) = Ok (gat g i) /\ (i < length (g_val g))%nat /\ v < gat g i /\
    (forall k, (k < length (g_val g))%nat -> v < gat g k -> gat g i <= gat g k).
Proof.
  intros g v Hs [i [Hi Hv]]. assert (Hlt : (ss_right g v < length (g_val g))%nat).
  { destruct (Nat.lt_ge_cases i (ss_right g v)) as [H|H]; [apply ss_right_spec in H; auto; lia|lia]. }
  exists (ss_right g v). split; [apply getitem_in; auto|]. split; auto. split.
  - destruct (Z_lt_le_dec v (gat g (ss_right g v))) as [H|H]; auto. apply ss_right_spec in H; auto. lia.
  - intros k Hk Hv'. apply Hs; auto.
    destruct (Nat.lt_ge_cases k (ss_right g v)) as [H|H]; auto. apply ss_right_spec in H; auto. lia.
Qed.

Lemma get_last_spec : forall g, is_series (g_kind g) = false -> (0 < length (g_val g))%nat ->
  get_last g = Ok (gat g (length (g_val g) - 1)).
Proof.
  intros g Hk Hn. unfold get_last. rewrite Hk.
  destruct (rev (g_val g)) as [|x t] eqn:E.
  - apply (f_equal (@rev Z)) in E. rewrite rev_involutive in E. rewrite E in Hn. simpl in Hn; lia.
  - f_equal. unfold gat. assert (El : g_val g = rev t ++ [x]).
    { rewrite <- (rev_involutive (g_val g)), E. reflexivity. }
    rewrite El, app_length. simpl. replace (length (rev t) + 1 - 1)%nat with (length (rev t)) by lia.
    rewrite nth_middle. reflexivity.
Qed.

(** ** even grids *)
Definition grid (s : Z) (l : list Z) : Prop :=
  forall i, (S i < length l)%nat -> nth (S i) l 0 = nth i l 0 \/ nth (S i) l 0 = nth i l 0 + s.

Lemma grid_nondecr : forall s l, 0 < s -> grid s l -> nondecr l.
Proof.
  intros s l Hs Hg i j Hij. induction Hij; intros Hj; [lia|].
  specialize (IHHij ltac:(lia)). destruct (Hg m Hj) as [E|E]; rewrite E; lia.
Qed.

Lemma grid_multiple : forall s l, grid s l -> forall i, (i < length l)%nat ->
  exists k, nth i l 0 = nth 0 l 0 + k * s.
Proof.
  intros s l Hg. induction i as [|i IH]; intros Hi; [exists 0; lia|].
  destruct IH as [k E]; [lia|]. destruct (Hg i Hi) as [E1|E1]; rewrite E1, E; [exists k|exists (k + 1)]; lia.
Qed.

Lemma grid_complete : forall s l, 0 < s -> grid s l -> forall i, (i < length l)%nat ->
  forall k, 0 <= k -> nth 0 l 0 + k * s <= nth i l 0 -> exists m, (m < length l)%nat /\ nth m l 0 = nth 0 l 0 + k * s.
Proof.
  intros s l Hs Hg. induction i as [|i IH]; intros Hi k Hk H.
  - exists 0%nat. split; auto. assert (k = 0) by nia. subst; lia.
  - destruct (Z_le_gt_dec (nth 0 l 0 + k * s) (nth i l 0)) as [H1|H1]; [apply IH; auto; lia|].
    destruct (grid_multiple s l Hg i ltac:(lia)) as [q Eq].
    destruct (Hg i Hi) as [E|E]; [lia|]. exists (S i). split; auto.
    rewrite E in *. rewrite Eq in *. assert (k = q + 1) by nia. subst; lia.
Qed.

(** ** arithmetic compatibility *)
Definition typed (k : gkind) (d : delta) : Prop := match d with DInt _ => is_time k = false | DTd _ => is_time k = true end.

Lemma plus_typed : forall k v d, typed k d -> plus_delta k v d = Ok (v + dval d).
Proof. intros k v [a|a] H; simpl in H; unfold plus_delta; rewrite H; reflexivity. Qed.
Lemma typed_neg : forall k d, typed k d -> typed k (neg_delta d).
Proof. intros k [a|a] H; exact H. Qed.

Lemma step_le : forall s a b, 0 < s -> a * s < b * s -> (a + 1) * s <= b * s.
Proof. intros s a b Hs H. apply Z.mul_le_mono_nonneg_r; [lia|]. assert (a < b) by nia. lia. Qed.

(** ** closed form *)
Section ClosedForm.
Variables (w : wforward) (g : groups) (n : nat).
Let s := dval (wf_unit w).
Let W := dval (wf_train w).
Let T := dval (wf_test w).
Let e := dval (wf_embargo w).
Let g0 := gat g 0.
Let L := gat g (n - 1).
Hypothesis Hkind : g_kind g = ArrInt \/ g_kind g = DtiTime.
Hypothesis Hty1 : typed (g_kind g) (wf_unit w).
Hypothesis Hty2 : typed (g_kind g) (wf_train w).
Hypothesis Hty3 : typed (g_kind g) (wf_test w).
Hypothesis Hty4 : typed (g_kind g) (wf_embargo w).
Hypothesis Hn : length (g_val g) = n.
Hypothesis Hn0 : (0 < n)%nat.
Hypothesis Hs : 0 < s.
Hypothesis Hgrid : grid s (g_val g).
Hypothesis HW : exists a, 1 <= a /\ W = a * s.
Hypothesis HT : exists a, 1 <= a /\ T = a * s.
Hypothesis Hfit : g0 + W - s + T <= L.
Hypothesis He : 0 <= e < W.

Definition wstart (j : Z) : Z := match wf_type w with Rolling => g0 + j * T | Expanding => g0 end.
Definition wtrain (j : Z) : list nat :=
  filter (fun i => (wstart j <=? gat g i) && (gat g i + e <? g0 + W + j * T)) (seq 0 n).
Definition wtest (j : Z) : list nat :=
  filter (fun i => (g0 + W + j * T <=? gat g i) && (gat g i <? g0 + W + (j + 1) * T)) (seq 0 n).
Definition wstate (j : Z) : wfst :=
  mkWS (wstart j) (g0 + W - s + j * T) (g0 + W + j * T) (Z.min (g0 + W - s + (j + 1) * T) L).

Let Hsorted : nondecr (g_val g).
Proof. apply (grid_nondecr s); auto. Qed.

Let Hser : is_series (g_kind g) = false.
Proof. destruct Hkind as [-> | ->]; reflexivity. Qed.

Lemma cf_last : get_last g = Ok L.
Proof. rewrite get_last_spec by (auto; lia). unfold L. rewrite Hn. reflexivity. Qed.

Lemma cf_le_L : forall i, (i < n)%nat -> gat g i <= L.
Proof. intros i Hi. unfold L. apply Hsorted; lia. Qed.

Lemma cf_present : forall k, 0 <= k -> g0 + k * s <= L -> exists m, (m < n)%nat /\ gat g m = g0 + k * s.
Proof.
  intros k Hk H. destruct (grid_complete s (g_val g) Hs Hgrid (n - 1)%nat ltac:(lia) k Hk H) as [m [Hm E]].
  exists m; split; [lia|exact E].
Qed.

Lemma cf_multiple : forall i, (i < n)%nat -> exists k, gat g i = g0 + k * s.
Proof. intros i Hi. unfold g0, gat. apply grid_multiple; auto. lia. Qed.

Lemma cf_L : exists k, 0 <= k /\ L = g0 + k * s.
Proof.
  destruct (cf_multiple (n - 1) ltac:(lia)) as [k E]. exists k. split; [|exact E].
  assert (g0 <= L) by (unfold g0, L; apply Hsorted; lia). fold L in E. nia.
Qed.

Lemma cf_left : forall v k, v = g0 + k * s -> 0 <= k -> v <= L -> getitem g (ss_left g v) = Ok v.
Proof.
  intros v k -> Hk Hv. destruct (cf_present k Hk Hv) as [m [Hm E]].
  apply (get_ss_left_present _ _ m); auto. lia.
Qed.

Lemma cf_right : forall v k, v = g0 + k * s -> 0 <= k -> v < L -> getitem g (ss_right g v) = Ok (v + s).
Proof.
  intros v k -> Hk Hv. destruct cf_L as [kl [Hkl El]].
  assert (Hkk : k < kl) by nia. assert (Hks : (k + 1) * s <= kl * s) by (apply Z.mul_le_mono_nonneg_r; lia).
  destruct (cf_present (k + 1) ltac:(lia)) as [m [Hm E]]; [lia|].
  destruct (get_ss_right g (g0 + k * s) Hsorted) as [i [Ei [Hi [H1 H2]]]].
  { exists m; split; [lia|]. lia. }
  rewrite Ei. f_equal. destruct (cf_multiple i ltac:(lia)) as [q Eq].
  specialize (H2 m ltac:(lia) ltac:(lia)). rewrite Eq in *.
  assert (q = k + 1) by nia. subst; lia.
Qed.

Lemma cf_start : wf_start w g = Ok (wstate 0).
Proof.
  destruct HW as [a [Ha EW]]. destruct HT as [b [Hb ET]].
  unfold wf_start. rewrite (getitem_in g 0) by lia. cbn [bind]. fold g0.
  rewrite (plus_typed _ _ _ Hty2). cbn [bind]. fold W.
  rewrite (plus_typed _ _ _ (typed_neg _ _ Hty1)). cbn [bind]. rewrite dval_neg. fold s.
  assert (E1 : g0 + W + - s = g0 + (a - 1) * s) by lia.
  rewrite (cf_left _ (a - 1) E1) by nia. cbn [bind].
  rewrite (cf_right _ (a - 1) E1) by nia. cbn [bind].
  rewrite (plus_typed _ _ _ Hty3). cbn [bind]. fold T.
  rewrite (plus_typed _ _ _ (typed_neg _ _ Hty1)). cbn [bind]. rewrite dval_neg. fold s.
  assert (E2 : g0 + W + - s + s + T + - s = g0 + (a + b - 1) * s) by lia.
  rewrite (cf_left _ (a + b - 1) E2) by nia. cbn [bind].
  unfold wstate, wstart. f_equal. f_equal; try lia. destruct (wf_type w); lia.
Qed.

Lemma filter_in_ext : forall (f h : nat -> bool),
  (forall i, (i < n)%nat -> f i = h i) -> filter f (seq 0 n) = filter h (seq 0 n).
Proof. intros f h H. apply filter_ext_in. intros i Hi; apply in_seq in Hi. apply H; lia. Qed.

Lemma cf_pair : forall j, 0 <= j -> g0 + W - s + j * T < L ->
  wf_pair w (seq 0 n) g (wstate j) = Ok (wtrain j, wtest j).
Proof.
  intros j Hj HjL. destruct HW as [a [Ha EW]]. destruct HT as [b [Hb ET]]. destruct cf_L as [kl [Hkl El]].
  unfold wf_pair. simpl ws_ts; simpl ws_te; simpl ws_xs; simpl ws_xe.
  assert (Etr0 : mask_select (seq 0 n) g (fun v => (v >=? wstart j) && (v <=? g0 + W - s + j * T))
     = Ok (filter (fun i => (wstart j <=? gat g i) && (gat g i <? g0 + W + j * T)) (seq 0 n))).
  { apply mask_select_seq; split; auto. apply filter_in_ext; intros i Hi.
    destruct (cf_multiple i Hi) as [q Eq]. rewrite Eq, EW, ET.
    replace (g0 + q * s >=? wstart j) with (wstart j <=? g0 + q * s) by lia. f_equal.
    assert (g0 + q * s <= g0 + a * s - s + j * (b * s) <-> g0 + q * s < g0 + a * s + j * (b * s)); [|lia].
    assert (q <= a - 1 + j * b <-> q < a + j * b) by lia. nia. }
  assert (Ete : mask_select (seq 0 n) g (fun v => (v >=? g0 + W + j * T) && (v <=? Z.min (g0 + W - s + (j + 1) * T) L))
     = Ok (wtest j)).
  { apply mask_select_seq; split; auto. apply filter_in_ext; intros i Hi.
    assert (HiL := cf_le_L i Hi).
    destruct (cf_multiple i Hi) as [q Eq]. rewrite Eq, EW, ET in *.
    replace (g0 + q * s >=? g0 + a * s + j * (b * s)) with (g0 + a * s + j * (b * s) <=? g0 + q * s) by lia. f_equal.
    assert (g0 + q * s <= g0 + a * s - s + (j + 1) * (b * s) <-> g0 + q * s < g0 + a * s + (j + 1) * (b * s)); [|lia].
    assert (q <= a - 1 + (j + 1) * b <-> q < a + (j + 1) * b) by lia. nia. }
  rewrite Etr0. cbn [bind]. rewrite Ete. cbn [bind].
  assert (Ejt : j * T = j * b * s) by (rewrite ET; lia).
  assert (Hxp : exists m, (m < n)%nat /\ gat g m = g0 + W + j * T).
  { rewrite EW, Ejt. replace (g0 + a * s + j * b * s) with (g0 + (a + j * b) * s) by lia.
    apply cf_present; [nia|]. assert (Hst := step_le s (a - 1 + j * b) kl Hs ltac:(lia)). lia. }
  destruct Hxp as [m [Hm Em]].
  destruct (delta_pos (wf_embargo w)) eqn:Hpos.
  - set (tr := filter _ (seq 0 n)) at 1.
    assert (Hne : wtest j <> []).
    { assert (In m (wtest j)). { unfold wtest. apply filter_In. rewrite in_seq. split; [lia|]. rewrite Em. nia. }
      destruct (wtest j); simpl in *; [tauto|congruence]. }
    destruct (embargo tr (wtest j) (seq 0 n) g (wf_embargo w)) as [r|err] eqn:E.
    + apply embargo_ok in E as [_ [_ [_ [_ [E1 [E2 _]]]]]]. destruct (E2 Hne) as [mn [[jn [N1 N2]] [N3 N4]]].
      cbn [bind]. do 2 f_equal. apply sorted_ext; auto.
      { apply filter_sorted, seq_sorted. }
      assert (Hmn : mn = g0 + W + j * T).
      { assert (mn <= g0 + W + j * T).
        { rewrite <- Em. apply N3. unfold wtest. apply filter_In. rewrite in_seq. split; [lia|]. rewrite Em. nia. }
        unfold wtest in N1. apply filter_In in N1 as [_ N1]. lia. }
      intros i. rewrite N4. fold e. unfold tr, wtrain. rewrite !filter_In, in_seq. rewrite Hmn. lia.
    + exfalso. unfold embargo in E.
      assert (Hv : validate_purge_embargo_inputs g (wf_embargo w) = Ok tt).
      { assert (Hsb := proj2 (sortedb_spec _) Hsorted). unfold validate_purge_embargo_inputs.
        unfold e in He. destruct (wf_embargo w) as [x|x]; simpl in He, Hty4;
        destruct Hkind as [Hk|Hk]; rewrite Hk in *; simpl in Hty4; try discriminate;
        (destruct (Z.ltb_spec x 0); [lia|]); rewrite Hsb; reflexivity. }
      rewrite Hv in E. cbn [bind] in E.
      destruct (sel_min g (wtest j)) as [o|] eqn:Eo.
      2:{ unfold sel_min in Eo. rewrite mapM_getitem_in in Eo.
          - simpl in Eo. destruct (wtest j); simpl in Eo; [congruence|discriminate].
          - intros i Hi. unfold wtest in Hi. apply filter_In in Hi as [Hi _]. apply in_seq in Hi. lia. }
      apply sel_min_spec in Eo. destruct o as [mn|]; [|tauto]. destruct Eo as [[jn [N1 N2]] N3].
      cbn [bind] in E. unfold plus_delta_o in E. rewrite (plus_typed _ _ _ (typed_neg _ _ Hty4)) in E. cbn [bind] in E.
      rewrite (proj2 (mask_select_seq n g _ _) (conj Hn eq_refl)) in E. cbn [bind] in E. cbv zeta in E.
      match type of E with context [setdiff1d tr ?x] => remember x as em eqn:Eem end.
      assert (Es : setdiff1d tr em = []) by (destruct (setdiff1d tr em); [reflexivity|discriminate E]).
      (* the first sample of the window survives *)
      assert (Hsw : exists q, (q < n)%nat /\ gat g q = wstart j).
      { unfold wstart. destruct (wf_type w).
        - exists 0%nat; split; [lia|reflexivity].
        - rewrite Ejt. apply cf_present; nia. }
      destruct Hsw as [q [Hq Eq]].
      assert (Hmn : mn = g0 + W + j * T).
      { assert (mn <= g0 + W + j * T).
        { rewrite <- Em. apply N3. unfold wtest. apply filter_In. rewrite in_seq. split; [lia|]. rewrite Em. nia. }
        unfold wtest in N1. apply filter_In in N1 as [_ N1]. lia. }
      assert (Hws : wstart j + e < g0 + W + j * T).
      { unfold wstart. destruct (wf_type w); nia. }
      assert (Hin : In q (setdiff1d tr em)).
      { rewrite In_setdiff1d. split.
        - unfold tr. apply filter_In. rewrite in_seq. split; [lia|]. rewrite Eq. lia.
        - rewrite Eem, filter_In. intros [_ Hx]. simpl in Hx. rewrite dval_neg in Hx. fold e in Hx. lia. }
      rewrite Es in Hin. destruct Hin.
  - assert (e = 0). { unfold e in *. unfold delta_pos in Hpos. destruct (wf_embargo w); simpl in *; lia. }
    do 2 f_equal. unfold wtrain. apply filter_in_ext. intros i Hi. rewrite H. f_equal. lia.
Qed.

Lemma cf_advance : forall j, 0 <= j -> g0 + W - s + (j + 1) * T < L ->
  wf_advance w g (wstate j) = Ok (wstate (j + 1)).
Proof.
  intros j Hj HjL. destruct HW as [a [Ha EW]]. destruct HT as [b [Hb ET]]. destruct cf_L as [kl [Hkl El]].
  unfold wf_advance, wstate. simpl ws_ts; simpl ws_te; simpl ws_xs; simpl ws_xe.
  assert (Ejt : j * T = j * b * s) by (rewrite ET; lia).
  assert (Ets : match wf_type w with Rolling => plus_delta (g_kind g) (wstart j) (wf_test w) | Expanding => Ok (wstart j) end
     = Ok (wstart (j + 1))).
  { unfold wstart. destruct (wf_type w); auto. rewrite (plus_typed _ _ _ Hty3). fold T. f_equal. lia. }
  rewrite Ets. cbn [bind].
  rewrite !(plus_typed _ _ _ Hty3). fold T. cbn [bind].
  assert (V1 : g0 + W - s + j * T + T = g0 + (a - 1 + (j + 1) * b) * s) by (rewrite EW, ET; ring).
  assert (V2 : g0 + W + j * T + T = g0 + (a + (j + 1) * b) * s) by (rewrite EW, ET; ring).
  assert (Hst := step_le s (a - 1 + (j + 1) * b) kl Hs ltac:(lia)).
  assert (Hjb : 0 <= (j + 1) * b) by nia.
  rewrite (cf_left _ _ V1) by lia. cbn [bind].
  rewrite (cf_left _ _ V2) by lia. cbn [bind].
  rewrite cf_last. cbn [bind].
  replace (Z.min (g0 + W - s + (j + 1) * T) L) with (g0 + W - s + (j + 1) * T) by lia.
  assert (Emin : exists k, 0 <= k /\ Z.min (g0 + W - s + (j + 1) * T + T) L = g0 + k * s).
  { destruct (Z.min_spec (g0 + W - s + (j + 1) * T + T) L) as [[_ E]|[_ E]]; rewrite E.
    - exists (a - 1 + (j + 2) * b). split; [nia|]. rewrite EW, ET. lia.
    - exists kl; auto. }
  destruct Emin as [k [Hk Ek]].
  rewrite (cf_left _ k Ek Hk) by lia. cbn [bind]. f_equal. f_equal; try lia.
Qed.

Lemma cf_loop : forall m j fuel o,
  0 <= j -> (1 <= m)%nat -> (m <= fuel)%nat ->
  g0 + W - s + (j + Z.of_nat m - 1) * T < L <= g0 + W - s + (j + Z.of_nat m) * T ->
  wf_loop w (seq 0 n) g fuel (wstate j) o =
  (mkGen (map (fun i => (wtrain (j + Z.of_nat i), wtest (j + Z.of_nat i))) (seq 0 m)) Done,
   mkWO (wo_n o + Z.of_nat m) true).
Proof.
  destruct HT as [b [Hb ET]].
  assert (HTpos : 0 < T) by nia.
  induction m as [|m IH]; intros j fuel o Hj Hm Hf HJ; [lia|].
  destruct fuel as [|fuel]; [lia|]. cbn [wf_loop].
  rewrite cf_last. simpl ws_te. simpl ws_xe.
  assert (Hlt : g0 + W - s + j * T < L) by nia.
  destruct (Z.ltb_spec (g0 + W - s + j * T) L); [|lia].
  rewrite cf_pair by auto.
  destruct m as [|m].
  - replace (Z.min (g0 + W - s + (j + 1) * T) L >=? L) with true by lia.
    cbn [seq map]. replace (j + Z.of_nat 0) with j by lia. simpl wo_n. f_equal; f_equal; lia.
  - assert (Hlt2 : g0 + W - s + (j + 1) * T < L) by nia.
    destruct (Z.min (g0 + W - s + (j + 1) * T) L >=? L) eqn:E; [lia|].
    rewrite cf_advance by auto.
    rewrite IH by (try lia; nia). cbn [fst snd yields ended wo_n].
    f_equal.
    + f_equal. change (seq 0 (S (S m))) with (0%nat :: seq 1 (S m)). cbn [map].
      replace (j + Z.of_nat 0) with j by lia. f_equal.
      rewrite <- (seq_shift (S m) 0), map_map. apply map_ext. intros i. replace (j + 1 + Z.of_nat i) with (j + Z.of_nat (S i)) by lia. reflexivity.
    + f_equal. lia.
Qed.

End ClosedForm.
