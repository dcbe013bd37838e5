(** Walk-forward on groups that are not evenly spaced: C89 (what holds for every sorted groups and what does not) and
    C90 (exact windows when the groups repeat with the test window, e.g. business days and whole weeks). *)
From Coq Require Import List ZArith Bool Arith Lia Sorted ZifyBool.
From Verif Require Import Base Split_Model Split_Proofs Walk_Proofs Kfold_Proofs Kfold_Props Walk_Props.
Import ListNotations.
Open Scope Z_scope.

(** * Specification vocabulary *)

(** v is the smallest group that satisfies P. *)
Definition first_group (n : nat) (G : nat -> Z) (P : Z -> Prop) (v : Z) : Prop :=
  (exists i, (i < n)%nat /\ G i = v /\ P v) /\ forall i, (i < n)%nat -> P (G i) -> v <= G i.

(** A splitter, its data and windows of at least one unit. *)
Record wf_use (e : delta) (p : parg) (tw xw : Z) (st : starg) (freq : option Z) (w : wforward) (o0 : wfobj)
  (n : nat) (y : yarg) (ga : garg) (emb : Z) : Prop := {
  wu_init : wf_init (PDelta e) p tw xw st freq = Ok (w, o0);
  wu_nat : natural_groups freq ga;
  wu_emb : embargo_is freq e emb;
  wu_unit : 0 < unit_of freq;
  wu_y : y <> YBad;
  wu_len : length (group_values n ga) = n;
  wu_n : (0 < n)%nat;
  wu_sorted : nondecr (group_values n ga);
  wu_tw : 1 <= tw;
  wu_xw : 1 <= xw }.

(** A block of consecutive samples. *)
Definition contiguous (l : list nat) : Prop :=
  forall i j k, In i l -> In k l -> (i <= j <= k)%nat -> In j l.

(** * What wf_use gives *)
Definition the_groups (n : nat) (ga : garg) : groups := match ga with GArr g => g | _ => arange_groups n end.

Record wf_facts (tw xw : Z) (st : starg) (freq : option Z) (w : wforward) (n : nat) (emb : Z) (g : groups) : Prop := {
  wk_kind : g_kind g = ArrInt \/ g_kind g = DtiTime;
  wk_t1 : typed (g_kind g) (wf_unit w);
  wk_t2 : typed (g_kind g) (wf_train w);
  wk_t3 : typed (g_kind g) (wf_test w);
  wk_t4 : typed (g_kind g) (wf_embargo w);
  wk_unit : dval (wf_unit w) = unit_of freq;
  wk_train : dval (wf_train w) = tw * unit_of freq;
  wk_test : dval (wf_test w) = xw * unit_of freq;
  wk_emb : dval (wf_embargo w) = emb /\ 0 <= emb;
  wk_type : wf_type w = match st with SRolling => Rolling | _ => Expanding end;
  wk_len : length (g_val g) = n;
  wk_sorted : nondecr (g_val g) }.

Lemma wf_use_facts : forall e p tw xw st freq w o0 n y ga emb,
  wf_use e p tw xw st freq w o0 n y ga emb ->
  wf_facts tw xw st freq w n emb (the_groups n ga) /\ (forall i, group_of n ga i = gat (the_groups n ga) i) /\
  basecv_split (XArr n) y ga = Ok tt.
Proof.
  intros e p tw xw st freq w o0 n y ga emb [Hi Hnat Hemb Hu Hy Hlen Hn Hs Htw Hxw].
  set (g := the_groups n ga).
  assert (Hgv : group_values n ga = g_val g) by (unfold g, the_groups; destruct ga; reflexivity).
  assert (Hgo : forall i, group_of n ga i = gat g i) by (intros; unfold group_of, gat; rewrite Hgv; auto).
  rewrite Hgv in Hlen, Hs.
  assert (Hkind : g_kind g = ArrInt \/ g_kind g = DtiTime).
  { unfold natural_groups in Hnat. unfold g, the_groups. destruct freq; destruct ga; simpl in *; tauto. }
  assert (Htime : is_time (g_kind g) = match freq with Some _ => true | None => false end).
  { unfold natural_groups in Hnat. unfold g, the_groups. destruct freq; destruct ga as [|g'|]; simpl in *; try tauto;
    rewrite Hnat; reflexivity. }
  unfold wf_init in Hi. apply bind_ok in Hi as [[de dp] [Hb Hi]].
  assert (Hde : de = e /\ 0 <= dval e).
  { unfold basecv_init in Hb. destruct p as [p|]; [|discriminate].
    destruct e as [a|a]; destruct p as [b|b]; simpl in Hb;
    destruct (Z.ltb_spec a 0); try discriminate; (try (destruct (b <? 0); discriminate));
    destruct (b <? 0); try discriminate; injection Hb as <- <-; auto. }
  destruct Hde as [-> Hde].
  assert (Hw : w = mkWF (match freq with Some u => to_timedelta e u | None => e end)
             (match freq with Some u => DTd (tw * u) | None => DInt tw end)
             (match freq with Some u => DTd (xw * u) | None => DInt xw end)
             (match st with SRolling => Rolling | _ => Expanding end) freq).
  { destruct st; try discriminate; destruct freq; injection Hi as <- _; reflexivity. }
  assert (Ty : forall d, match d with DInt _ => freq = None | DTd _ => freq <> None end -> typed (g_kind g) d).
  { intros [a|a] H; simpl; rewrite Htime; destruct freq; congruence. }
  split; [|split; [exact Hgo|]].
  - constructor; auto.
    + apply Ty; rewrite Hw; unfold wf_unit; simpl; destruct freq; congruence.
    + apply Ty; rewrite Hw; simpl; destruct freq; congruence.
    + apply Ty; rewrite Hw; simpl; destruct freq; congruence.
    + apply Ty; rewrite Hw; simpl. unfold embargo_is in Hemb. destruct freq; destruct e; simpl; try tauto; congruence.
    + rewrite Hw; unfold wf_unit; simpl; destruct freq; reflexivity.
    + rewrite Hw; simpl; destruct freq; simpl; lia.
    + rewrite Hw; simpl; destruct freq; simpl; lia.
    + rewrite Hw; simpl. unfold embargo_is in Hemb.
      destruct freq as [u'|]; destruct e as [a|a]; simpl in *; try tauto; subst emb; split; auto. nia.
    + rewrite Hw; reflexivity.
  - simpl. unfold natural_groups in Hnat. destruct y; try congruence; destruct ga as [|g'|]; auto;
    try (destruct freq; tauto);
    (change (g_val g') with (g_val g); rewrite (proj2 (sortedb_spec (g_val g)) Hs); auto).
Qed.

(** * Loop invariant for every sorted groups *)
Section General.
Variables (tw xw : Z) (st : starg) (freq : option Z) (w : wforward) (n : nat) (emb : Z) (g : groups).
Hypothesis F : wf_facts tw xw st freq w n emb g.
Hypothesis Hu : 0 < unit_of freq.
Hypothesis Htw : 1 <= tw.
Hypothesis Hxw : 1 <= xw.
Hypothesis Hn : (0 < n)%nat.
Let u := unit_of freq.
Let T := xw * u.
Let L := gat g (n - 1).

Let Hs : nondecr (g_val g).
Proof. exact (wk_sorted _ _ _ _ _ _ _ _ F). Qed.
Let Hlen : length (g_val g) = n.
Proof. exact (wk_len _ _ _ _ _ _ _ _ F). Qed.

Lemma gl_last : get_last g = Ok L.
Proof.
  rewrite get_last_spec; [unfold L; rewrite Hlen; reflexivity| |lia].
  destruct (wk_kind _ _ _ _ _ _ _ _ F) as [-> | ->]; reflexivity.
Qed.

Lemma gl_le_L : forall i, (i < n)%nat -> gat g i <= L.
Proof. intros i Hi. unfold L. apply Hs; lia. Qed.

Lemma gl_T : 0 < T.
Proof. unfold T, u. nia. Qed.

(** Searching for a value: the first group at least v, or IndexError when there is none. *)
Lemma gl_left : forall v x, first_group n (gat g) (fun z => v <= z) x -> getitem g (ss_left g v) = Ok x.
Proof.
  intros v x [[i [Hi [Ei Px]]] Hmin]. destruct (get_ss_left g v Hs) as [k [Ek [Hk [K1 K2]]]].
  { exists i. rewrite Ei. split; [lia|auto]. }
  rewrite Ek. f_equal. rewrite Hlen in *. specialize (Hmin k Hk K1). specialize (K2 i Hi). lia.
Qed.

Lemma gl_left_none : forall v, L < v -> getitem g (ss_left g v) = Raise IndexError.
Proof.
  intros v Hv. assert (E : ss_left g v = n).
  { assert (H1 := ss_left_le g v). rewrite Hlen in H1.
    assert (H2 : gat g (n - 1) < v) by exact Hv. apply ss_left_spec in H2; auto; [lia|lia]. }
  rewrite E. unfold getitem. rewrite (proj2 (nth_error_None _ _)) by lia.
  destruct (wk_kind _ _ _ _ _ _ _ _ F) as [-> | ->]; reflexivity.
Qed.

Lemma gl_right : forall v x, first_group n (gat g) (fun z => v < z) x -> getitem g (ss_right g v) = Ok x.
Proof.
  intros v x [[i [Hi [Ei Px]]] Hmin]. destruct (get_ss_right g v Hs) as [k [Ek [Hk [K1 K2]]]].
  { exists i. rewrite Ei. split; [lia|auto]. }
  rewrite Ek. f_equal. rewrite Hlen in *. specialize (Hmin k Hk K1). specialize (K2 i Hi). lia.
Qed.

Lemma gl_right_none : forall v, L <= v -> getitem g (ss_right g v) = Raise IndexError.
Proof.
  intros v Hv. assert (E : ss_right g v = n).
  { assert (H1 := ss_right_le g v). rewrite Hlen in H1.
    assert (H2 : gat g (n - 1) <= v) by exact Hv. apply ss_right_spec in H2; auto; [lia|lia]. }
  rewrite E. unfold getitem. rewrite (proj2 (nth_error_None _ _)) by lia.
  destruct (wk_kind _ _ _ _ _ _ _ _ F) as [-> | ->]; reflexivity.
Qed.

Lemma first_left_exists : forall v, v <= L -> exists x, first_group n (gat g) (fun z => v <= z) x.
Proof.
  intros v Hv. destruct (get_ss_left g v Hs) as [k [Ek [Hk [K1 K2]]]]; [exists (n - 1)%nat; split; [lia|exact Hv]|].
  rewrite Hlen in *. exists (gat g k). split; [exists k; auto|auto].
Qed.

Lemma first_right_exists : forall v, v < L -> exists x, first_group n (gat g) (fun z => v < z) x.
Proof.
  intros v Hv. destruct (get_ss_right g v Hs) as [k [Ek [Hk [K1 K2]]]]; [exists (n - 1)%nat; split; [lia|exact Hv]|].
  rewrite Hlen in *. exists (gat g k). split; [exists k; auto|auto].
Qed.

Lemma first_unique : forall P x x', first_group n (gat g) P x -> first_group n (gat g) P x' -> x = x'.
Proof.
  intros P x x' [[i [Hi [Ei Px]]] Hx] [[k [Hk [Ek Px']]] Hx']. subst.
  specialize (Hx k Hk Px'). specialize (Hx' i Hi Px). lia.
Qed.

(** The state before the loop. *)
Lemma gl_start : wf_start w g =
  let a := gat g 0 + (tw - 1) * u in
  te <- getitem g (ss_left g a) ;;
  xs <- getitem g (ss_right g a) ;;
  xe <- getitem g (ss_left g (xs + (xw - 1) * u)) ;;
  Ok (mkWS (gat g 0) te xs xe).
Proof.
  unfold wf_start. destruct F. rewrite (getitem_in g 0) by lia. cbn [bind]. cbv zeta.
  rewrite (plus_typed _ _ _ wk_t6). cbn [bind]. rewrite (plus_typed _ _ _ (typed_neg _ _ wk_t5)). cbn [bind].
  rewrite dval_neg, wk_unit0, wk_train0. fold u.
  replace (gat g 0 + tw * u + - u) with (gat g 0 + (tw - 1) * u) by lia.
  destruct (getitem g (ss_left g _)); cbn [bind]; auto.
  destruct (getitem g (ss_right g _)) as [xs|]; cbn [bind]; auto.
  rewrite (plus_typed _ _ _ wk_t7). cbn [bind]. rewrite (plus_typed _ _ _ (typed_neg _ _ wk_t5)). cbn [bind].
  rewrite dval_neg, wk_unit0, wk_test0. fold u.
  replace (xs + xw * u + - u) with (xs + (xw - 1) * u) by lia. reflexivity.
Qed.

Lemma gl_advance : forall s, wf_advance w g s =
  (te <- getitem g (ss_left g (ws_te s + T)) ;;
  xs <- getitem g (ss_left g (ws_xs s + T)) ;;
  xe <- getitem g (ss_left g (Z.min (ws_xe s + T) L)) ;;
  Ok (mkWS (match st with SRolling => ws_ts s + T | _ => ws_ts s end) te xs xe)).
Proof.
  intros s. unfold wf_advance. rewrite gl_last. destruct F.
  rewrite !(plus_typed _ _ _ wk_t7). rewrite wk_test0, wk_type0. fold u. fold T.
  destruct st; cbn [bind]; reflexivity.
Qed.

Record inv (s : wfst) : Prop := {
  in_te : exists i, (i < n)%nat /\ gat g i = ws_te s;
  in_xs : exists i, (i < n)%nat /\ gat g i = ws_xs s;
  in_xe : exists i, (i < n)%nat /\ gat g i = ws_xe s;
  in_ts_te : ws_ts s <= ws_te s;
  in_te_xs : ws_te s <= ws_xs s;
  in_xs_xe : ws_xs s <= ws_xe s }.

Lemma get_left_group : forall v x, getitem g (ss_left g v) = Ok x ->
  first_group n (gat g) (fun z => v <= z) x.
Proof.
  intros v x H. destruct (Z_le_gt_dec v L) as [C|C].
  - destruct (first_left_exists v C) as [x' Hx']. rewrite (gl_left v x' Hx') in H. injection H as <-. exact Hx'.
  - rewrite gl_left_none in H by lia. discriminate.
Qed.

Lemma get_right_group : forall v x, getitem g (ss_right g v) = Ok x ->
  first_group n (gat g) (fun z => v < z) x.
Proof.
  intros v x H. destruct (Z_lt_le_dec v L) as [C|C].
  - destruct (first_right_exists v C) as [x' Hx']. rewrite (gl_right v x' Hx') in H. injection H as <-. exact Hx'.
  - rewrite gl_right_none in H by lia. discriminate.
Qed.

Lemma inv_start : forall s, wf_start w g = Ok s -> inv s.
Proof.
  intros s H. rewrite gl_start in H. cbv zeta in H.
  apply bind_ok in H as [te [H1 H]]. apply bind_ok in H as [xs [H2 H]]. apply bind_ok in H as [xe [H3 H]].
  injection H as <-. apply get_left_group in H1. apply get_right_group in H2. apply get_left_group in H3.
  destruct H1 as [[i1 [I1 [E1 P1]]] M1]. destruct H2 as [[i2 [I2 [E2 P2]]] M2]. destruct H3 as [[i3 [I3 [E3 P3]]] M3].
  simpl in *. assert (0 <= (tw - 1) * u) by (unfold u; nia). assert (0 <= (xw - 1) * u) by (unfold u; nia).
  constructor; simpl; eauto; try lia.
  rewrite <- E2. apply M1; auto. lia.
Qed.

Lemma inv_advance : forall s s', inv s -> wf_advance w g s = Ok s' ->
  inv s' /\ ws_xs s + T <= ws_xs s' /\ ws_te s + T <= ws_te s'.
Proof.
  intros s s' [A1 A2 A3 A4 A5 A6] H. rewrite gl_advance in H. assert (HT := gl_T).
  apply bind_ok in H as [te [H1 H]]. apply bind_ok in H as [xs [H2 H]]. apply bind_ok in H as [xe [H3 H]].
  injection H as <-. apply get_left_group in H1. apply get_left_group in H2. apply get_left_group in H3.
  destruct H1 as [[i1 [I1 [E1 P1]]] M1]. destruct H2 as [[i2 [I2 [E2 P2]]] M2]. destruct H3 as [[i3 [I3 [E3 P3]]] M3].
  simpl in *. split; [|split; auto]. constructor; simpl; eauto.
  - destruct st; lia.
  - rewrite <- E2. apply M1; auto. lia.
  - (* xs' is the first group >= xs + T; xe' >= min (xe + T) L *)
    rewrite <- E3 in *. destruct (Z.le_gt_cases (ws_xs s + T) (gat g i3)) as [C|C]; [apply M2; auto|].
    assert (gat g i2 <= L) by (apply gl_le_L; auto). lia.
Qed.

(** The pair of a state. *)
Lemma pair_shape : forall s tr te, inv s -> wf_pair w (seq 0 n) g s = Ok (tr, te) ->
  te = filter (fun i => (ws_xs s <=? gat g i) && (gat g i <=? ws_xe s)) (seq 0 n) /\
  tr = filter (fun i => (ws_ts s <=? gat g i) && (gat g i <=? ws_te s) &&
                        negb ((ws_xs s - emb <=? gat g i) && (gat g i <? ws_xs s))) (seq 0 n) /\
  (exists i, In i te /\ gat g i = ws_xs s) /\ tr <> [].
Proof.
  intros s tr te [A1 A2 A3 A4 A5 A6] H. unfold wf_pair in H.
  apply bind_ok in H as [tr0 [H1 H]]. apply mask_select_seq in H1 as [_ H1].
  apply bind_ok in H as [te0 [H2 H]]. apply mask_select_seq in H2 as [_ H2].
  assert (E1 : tr0 = filter (fun i => (ws_ts s <=? gat g i) && (gat g i <=? ws_te s)) (seq 0 n)).
  { rewrite H1. apply filter_ext. intros i. lia. }
  assert (E2 : te0 = filter (fun i => (ws_xs s <=? gat g i) && (gat g i <=? ws_xe s)) (seq 0 n)).
  { rewrite H2. apply filter_ext. intros i. lia. }
  destruct A2 as [m [Hm Em]].
  assert (Hin : In m te0) by (rewrite E2, filter_In, in_seq; split; lia).
  destruct F as [_ _ _ _ _ _ _ _ [Ee Hemb] _ _ _].
  destruct (delta_pos (wf_embargo w)) eqn:Hp.
  - apply bind_ok in H as [r [H3 H]]. injection H as <- <-.
    apply embargo_ok in H3 as [_ [_ [_ [R1 [R2 [R3 _]]]]]].
    destruct R3 as [mn [[k [K1 K2]] [K3 K4]]]; [intros C; rewrite C in Hin; destruct Hin|].
    assert (mn = ws_xs s).
    { specialize (K3 m Hin). rewrite E2, filter_In in K1. lia. }
    subst mn. split; [exact E2|]. split; [|split; [exists m; auto|exact R1]].
    apply sorted_ext; auto; [apply filter_sorted, seq_sorted|].
    intros i. rewrite K4, E1, !filter_In, in_seq, Ee. lia.
  - injection H as <- <-. assert (emb = 0) by (unfold delta_pos in Hp; destruct (wf_embargo w); simpl in *; lia).
    split; [exact E2|]. split; [|split; [exists m; auto|]].
    + rewrite E1. apply filter_ext. intros i. lia.
    + destruct A1 as [q [Hq Eq]]. intros C. assert (In q tr0) by (rewrite E1, filter_In, in_seq; split; lia).
      rewrite C in *; auto.
Qed.

(** Outcome of one iteration: the pair, or ValueError when nothing of the training window survives the embargo. *)
Definition st_train (s : wfst) : list nat :=
  filter (fun i => (ws_ts s <=? gat g i) && (gat g i <=? ws_te s) &&
                   negb ((ws_xs s - emb <=? gat g i) && (gat g i <? ws_xs s))) (seq 0 n).
Definition st_test (s : wfst) : list nat :=
  filter (fun i => (ws_xs s <=? gat g i) && (gat g i <=? ws_xe s)) (seq 0 n).

Lemma pair_run : forall s, inv s ->
  wf_pair w (seq 0 n) g s = match st_train s with [] => Raise ValueError | tr => Ok (tr, st_test s) end.
Proof.
  intros s I. destruct (wf_pair w (seq 0 n) g s) as [[tr te]|err] eqn:E.
  - destruct (pair_shape s tr te I E) as [E1 [E2 [_ Hne]]]. unfold st_train. rewrite <- E2.
    unfold st_test. rewrite <- E1. destruct tr; [congruence|reflexivity].
  - destruct I as [A1 A2 A3 A4 A5 A6]. destruct A2 as [m [Hm Em]].
    unfold wf_pair in E.
    rewrite (proj2 (mask_select_seq n g _ _) (conj Hlen eq_refl)) in E. cbn [bind] in E.
    rewrite (proj2 (mask_select_seq n g _ _) (conj Hlen eq_refl)) in E. cbn [bind] in E.
    set (tr0 := filter (fun i => (gat g i >=? ws_ts s) && (gat g i <=? ws_te s)) (seq 0 n)) in E.
    set (te0 := filter (fun i => (gat g i >=? ws_xs s) && (gat g i <=? ws_xe s)) (seq 0 n)) in E.
    assert (Hin : In m te0) by (unfold te0; rewrite filter_In, in_seq; split; lia).
    destruct (delta_pos (wf_embargo w)) eqn:Hp; [|discriminate].
    destruct (embargo tr0 te0 (seq 0 n) g (wf_embargo w)) as [r|err'] eqn:E'; [discriminate|].
    cbn [bind] in E. injection E as <-. unfold embargo in E'.
    assert (Hv : validate_purge_embargo_inputs g (wf_embargo w) = Ok tt).
    { assert (Hsb := proj2 (sortedb_spec _) Hs). unfold validate_purge_embargo_inputs.
      assert (Hk := wk_kind _ _ _ _ _ _ _ _ F). assert (Ht := wk_t4 _ _ _ _ _ _ _ _ F).
      assert (He := wk_emb _ _ _ _ _ _ _ _ F).
      destruct (wf_embargo w) as [x|x]; simpl in He, Ht;
      destruct Hk as [Hk|Hk]; rewrite Hk in *; simpl in Ht; try discriminate;
      (destruct (Z.ltb_spec x 0); [lia|]); rewrite Hsb; reflexivity. }
    rewrite Hv in E'. cbn [bind] in E'.
    destruct (sel_min g te0) as [o|] eqn:Eo.
    2:{ unfold sel_min in Eo. rewrite mapM_getitem_in in Eo.
        - simpl in Eo. destruct te0; simpl in Eo; [destruct Hin|discriminate].
        - intros i Hi. unfold te0 in Hi. apply filter_In in Hi as [Hi _]. apply in_seq in Hi. lia. }
    apply sel_min_spec in Eo. assert (Hne0 : te0 <> []) by (intros C0; rewrite C0 in Hin; destruct Hin).
    destruct o as [mn|]; [|tauto].
    destruct Eo as [[jn [N1 N2]] N3].
    assert (mn = ws_xs s).
    { specialize (N3 m Hin). unfold te0 in N1. rewrite filter_In in N1. lia. }
    subst mn. cbn [bind] in E'. unfold plus_delta_o in E'.
    rewrite (plus_typed _ _ _ (typed_neg _ _ (wk_t4 _ _ _ _ _ _ _ _ F))) in E'. cbn [bind] in E'.
    rewrite (proj2 (mask_select_seq n g _ _) (conj Hlen eq_refl)) in E'. cbn [bind] in E'. cbv zeta in E'.
    match type of E' with context [setdiff1d tr0 ?x] => remember x as em eqn:Eem end.
    destruct (setdiff1d tr0 em) as [|q r] eqn:Es; [|discriminate]. injection E' as <-.
    destruct (st_train s) as [|q r] eqn:Et; [reflexivity|]. exfalso.
    assert (Hq : In q (st_train s)) by (rewrite Et; left; reflexivity).
    unfold st_train in Hq. rewrite filter_In, in_seq in Hq.
    assert (Hq2 : In q (setdiff1d tr0 em)).
    { rewrite In_setdiff1d. split; [unfold tr0; rewrite filter_In, in_seq; split; lia|].
      rewrite Eem, filter_In. intros [_ Hx]. simpl in Hx.
      destruct (wk_emb _ _ _ _ _ _ _ _ F) as [He _]. rewrite dval_neg, He in Hx. lia. }
    rewrite Es in Hq2. destruct Hq2.
Qed.

(** All states of a run: the pairs come from states that satisfy the invariant and move on by at least T. *)
Lemma loop_pairs : forall fuel s o, inv s ->
  exists ss, Forall inv ss /\
    Forall2 (fun s pr => wf_pair w (seq 0 n) g s = Ok pr) ss (yields (fst (wf_loop w (seq 0 n) g fuel s o))) /\
    (forall s0 rest, ss = s0 :: rest -> s0 = s) /\
    (forall j s1 s2, nth_error ss j = Some s1 -> nth_error ss (S j) = Some s2 ->
       ws_xs s1 + T <= ws_xs s2 /\ ws_te s1 + T <= ws_te s2).
Proof.
  induction fuel as [|fuel IH]; intros s o Hi; cbn [wf_loop]; rewrite gl_last.
  - exists []. split; [constructor|]. split; [|split; [discriminate|intros [|j] ? ?; discriminate]].
    destruct (_ <? _); [|constructor]. destruct (wf_pair w (seq 0 n) g s); constructor.
  - destruct (_ <? _); [|exists []; split; [constructor|split; [constructor|split; [discriminate|intros [|j] ? ?; discriminate]]]].
    destruct (wf_pair w (seq 0 n) g s) as [pr|] eqn:Ep;
      [|exists []; split; [constructor|split; [constructor|split; [discriminate|intros [|j] ? ?; discriminate]]]].
    assert (One : exists ss, Forall inv ss /\
      Forall2 (fun s pr => wf_pair w (seq 0 n) g s = Ok pr) ss [pr] /\ (forall s0 rest, ss = s0 :: rest -> s0 = s) /\
      (forall j s1 s2, nth_error ss j = Some s1 -> nth_error ss (S j) = Some s2 -> ws_xs s1 + T <= ws_xs s2 /\ ws_te s1 + T <= ws_te s2)).
    { exists [s]. split; [apply Forall_cons; [exact Hi|apply Forall_nil]|]. split; [apply Forall2_cons; [exact Ep|apply Forall2_nil]|].
      split; [intros ? ? E; injection E; auto|]. intros j s1 s2 _ E. destruct j; discriminate. }
    destruct (_ >=? _); [exact One|].
    destruct (wf_advance w g s) as [s'|] eqn:Ea; [|exact One].
    destruct (inv_advance s s' Hi Ea) as [Hi' Hx].
    destruct (IH s' (mkWO (wo_n o + 1) (wo_fin o)) Hi') as [ss [B1 [B2 [B3 B4]]]].
    exists (s :: ss). split; [constructor; auto|]. split; [constructor; auto|].
    split; [intros ? ? E; injection E; auto|].
    intros [|j] s1 s2 E1 E2; simpl in E1, E2; [|apply (B4 j); auto].
    injection E1 as <-. destruct ss as [|s0 rest]; [discriminate|]. injection E2 as <-.
    rewrite (B3 s0 rest eq_refl). exact Hx.
Qed.
End General.

Lemma Forall2_nth_r : forall A B (R : A -> B -> Prop) l l', Forall2 R l l' -> forall j b, nth_error l' j = Some b ->
  exists a, nth_error l j = Some a /\ R a b.
Proof.
  intros A B R l l' H. induction H; intros [|j] b E; simpl in E; try discriminate; [injection E as <-; exists x; split; [reflexivity|assumption]|].
  apply IHForall2; auto.
Qed.

(** * C89 *)

(** Every pair of every run on sorted groups: both sets are non-empty and made of whole groups; the test set is one
    block of consecutive samples; no training group is later than any test group; a sample of the training set that is
    not in the test set is more than the embargo before every test sample, and these samples form one block. *)
Theorem C89_every_pair : forall e p tw xw st freq w o0 n y ga emb fuel o tr te,
  wf_use e p tw xw st freq w o0 n y ga emb ->
  In (tr, te) (yields (fst (wf_split w fuel (XArr n) y ga o))) ->
  tr <> [] /\ te <> [] /\ StronglySorted lt tr /\ StronglySorted lt te /\
  (forall i, In i tr \/ In i te -> (i < n)%nat) /\
  (forall i k, (i < n)%nat -> (k < n)%nat -> group_of n ga i = group_of n ga k ->
     (In i tr <-> In k tr) /\ (In i te <-> In k te)) /\
  contiguous te /\
  (forall i j, In i tr -> In j te -> group_of n ga i <= group_of n ga j) /\
  (forall i j, In i tr -> ~ In i te -> In j te -> group_of n ga i + emb < group_of n ga j) /\
  (forall i j k, In i tr -> In k tr -> ~ In k te -> (i <= j <= k)%nat -> In j tr).
Proof.
  intros e p tw xw st freq w o0 n y ga emb fuel o tr te U H.
  destruct (wf_use_facts _ _ _ _ _ _ _ _ _ _ _ _ U) as [F [Hgo Hb]]. set (g := the_groups n ga) in *.
  destruct U as [_ _ _ Hu _ _ Hn _ Htw Hxw].
  unfold wf_split in H. rewrite Hb in H. cbn [x_rows] in H. fold (the_groups n ga) in H. fold g in H.
  destruct (wf_start w g) as [s0|] eqn:Es; [|destruct H].
  assert (Hi := inv_start _ _ _ _ _ _ _ _ F Hu Htw Hxw Hn s0 Es).
  destruct (loop_pairs _ _ _ _ _ _ _ _ F Hu Hxw Hn fuel s0 o Hi) as [ss [B1 [B2 _]]].
  apply In_nth_error in H as [j Hj]. destruct (Forall2_nth_r _ _ _ _ _ B2 j _ Hj) as [s [Hs0 Hp]].
  rewrite Forall_forall in B1. specialize (B1 s (nth_error_In _ _ Hs0)).
  destruct (pair_shape _ _ _ _ _ _ _ _ F Hn s tr te B1 Hp) as [Ete [Etr [[m [Hm Em]] Hne]]].
  destruct B1 as [A1 A2 A3 A4 A5 A6]. destruct F as [_ _ _ _ _ _ _ _ [_ Hemb] _ Hlen Hs].
  assert (Mono : forall i k, (i <= k)%nat -> (k < n)%nat -> gat g i <= gat g k) by (intros; apply Hs; lia).
  assert (ITR : forall i, In i tr <-> (i < n)%nat /\ ws_ts s <= gat g i <= ws_te s /\
      ~ (ws_xs s - emb <= gat g i < ws_xs s)).
  { intros i. rewrite Etr, filter_In, in_seq. lia. }
  assert (ITE : forall i, In i te <-> (i < n)%nat /\ ws_xs s <= gat g i <= ws_xe s).
  { intros i. rewrite Ete, filter_In, in_seq. lia. }
  split; [exact Hne|]. split; [intros C; rewrite C in Hm; destruct Hm|].
  split; [rewrite Etr; apply filter_sorted, seq_sorted|]. split; [rewrite Ete; apply filter_sorted, seq_sorted|].
  split; [intros i [I|I]; [apply ITR in I|apply ITE in I]; tauto|].
  split; [intros i k Ii Ik E; rewrite !Hgo in E; rewrite !ITR, !ITE, E; tauto|].
  split.
  { intros i q k Ii Ik Hq. apply ITE in Ii. apply ITE in Ik. apply ITE.
    assert (M1 := Mono i q ltac:(lia) ltac:(lia)). assert (M2 := Mono q k ltac:(lia) ltac:(lia)). lia. }
  split; [intros i q Ii Iq; rewrite !Hgo; apply ITR in Ii; apply ITE in Iq; lia|].
  split.
  - intros i q Ii Ni Iq. rewrite !Hgo. rewrite ITR in Ii. rewrite ITE in Ni, Iq. lia.
  - intros i q k Ii Ik Nk Hq. rewrite ITR in *. rewrite ITE in Nk.
    assert (M1 := Mono i q ltac:(lia) ltac:(lia)). assert (M2 := Mono q k ltac:(lia) ltac:(lia)). lia.
Qed.
Print Assumptions C89_every_pair.

(** From one pair to the next the test set moves on by at least the test window, and so does the last training group. *)
Theorem C89_windows_advance : forall e p tw xw st freq w o0 n y ga emb fuel o j tr1 te1 tr2 te2,
  wf_use e p tw xw st freq w o0 n y ga emb ->
  let run := yields (fst (wf_split w fuel (XArr n) y ga o)) in
  nth_error run j = Some (tr1, te1) -> nth_error run (S j) = Some (tr2, te2) ->
  exists i1, In i1 te1 /\ (forall i2, In i2 te2 -> group_of n ga i1 + xw * unit_of freq <= group_of n ga i2).
Proof.
  intros e p tw xw st freq w o0 n y ga emb fuel o j tr1 te1 tr2 te2 U run H1 H2. unfold run in *.
  destruct (wf_use_facts _ _ _ _ _ _ _ _ _ _ _ _ U) as [F [Hgo Hb]]. set (g := the_groups n ga) in *.
  destruct U as [_ _ _ Hu _ _ Hn _ Htw Hxw].
  unfold wf_split in H1, H2. rewrite Hb in H1, H2. cbn [x_rows] in H1, H2. fold (the_groups n ga) in H1, H2. fold g in H1, H2.
  destruct (wf_start w g) as [s0|] eqn:Es; [|destruct j; discriminate].
  assert (Hi := inv_start _ _ _ _ _ _ _ _ F Hu Htw Hxw Hn s0 Es).
  destruct (loop_pairs _ _ _ _ _ _ _ _ F Hu Hxw Hn fuel s0 o Hi) as [ss [B1 [B2 [_ B4]]]].
  destruct (Forall2_nth_r _ _ _ _ _ B2 j _ H1) as [s1 [S1 P1]].
  destruct (Forall2_nth_r _ _ _ _ _ B2 (S j) _ H2) as [s2 [S2 P2]].
  rewrite Forall_forall in B1.
  destruct (pair_shape _ _ _ _ _ _ _ _ F Hn s1 _ _ (B1 s1 (nth_error_In _ _ S1)) P1) as [_ [_ [[m [Hm Em]] _]]].
  destruct (pair_shape _ _ _ _ _ _ _ _ F Hn s2 _ _ (B1 s2 (nth_error_In _ _ S2)) P2) as [Ete [_ _]].
  destruct (B4 j s1 s2 S1 S2) as [X _]. exists m. split; [exact Hm|]. intros i2 I2. rewrite !Hgo, Em.
  rewrite Ete, filter_In in I2. lia.
Qed.
Print Assumptions C89_windows_advance.

(** A run yields nothing and raises IndexError when the first test window does not fit: there is no group after
    the nominal training window, or the nominal end of the test window lies after the last group. *)
Theorem C89_too_short : forall e p tw xw st freq w o0 n y ga emb fuel o,
  wf_use e p tw xw st freq w o0 n y ga emb ->
  ~ (exists x, first_group n (group_of n ga) (fun v => group_of n ga 0 + (tw - 1) * unit_of freq < v) x /\
               x + (xw - 1) * unit_of freq <= group_of n ga (n - 1)) ->
  wf_split w fuel (XArr n) y ga o = (mkGen [] (Raised IndexError), o).
Proof.
  intros e p tw xw st freq w o0 n y ga emb fuel o U H.
  destruct (wf_use_facts _ _ _ _ _ _ _ _ _ _ _ _ U) as [F [Hgo Hb]]. set (g := the_groups n ga) in *.
  destruct U as [_ _ _ Hu _ _ Hn _ Htw Hxw].
  unfold wf_split. rewrite Hb. cbn [x_rows]. fold (the_groups n ga). fold g.
  rewrite (gl_start _ _ _ _ _ _ _ _ F Hn). cbv zeta. rewrite !Hgo in H.
  set (a := gat g 0 + (tw - 1) * unit_of freq) in *.
  destruct (Z_lt_le_dec a (gat g (n - 1))) as [C|C].
  - destruct (first_left_exists _ _ _ _ _ _ _ _ F Hn a ltac:(lia)) as [t Ht].
    rewrite (gl_left _ _ _ _ _ _ _ _ F Hn a t Ht). cbn [bind].
    destruct (first_right_exists _ _ _ _ _ _ _ _ F Hn a C) as [x Hx].
    rewrite (gl_right _ _ _ _ _ _ _ _ F Hn a x Hx). cbn [bind].
    rewrite (gl_left_none _ _ _ _ _ _ _ _ F Hn); [reflexivity|].
    destruct (Z_lt_le_dec (gat g (n - 1)) (x + (xw - 1) * unit_of freq)) as [D|D]; auto.
    exfalso. apply H. exists x. split; auto.
    destruct Hx as [[i [Hi [Ei Pi]]] Hm]. split; [exists i; rewrite Hgo; auto|].
    intros k Hk Pk. rewrite Hgo in *. apply Hm; auto.
  - destruct (Z_le_gt_dec a (gat g (n - 1))) as [D|D].
    + destruct (first_left_exists _ _ _ _ _ _ _ _ F Hn a D) as [t Ht].
      rewrite (gl_left _ _ _ _ _ _ _ _ F Hn a t Ht). cbn [bind].
      rewrite (gl_right_none _ _ _ _ _ _ _ _ F Hn) by auto. reflexivity.
    + rewrite (gl_left_none _ _ _ _ _ _ _ _ F Hn) by lia. reflexivity.
Qed.
Print Assumptions C89_too_short.

(** Otherwise the first iteration is exactly this: t is the last training group, x the first and z the last test group.
    If the training window already reaches the last group the run ends without any pair and without an error. Otherwise
    the first pair is the whole groups of [first group, t], minus those at most the embargo before x, against those of
    [x, z]; if nothing is left to train on, ValueError. *)
Theorem C89_first_pair : forall e p tw xw st freq w o0 n y ga emb fuel o t x z,
  wf_use e p tw xw st freq w o0 n y ga emb ->
  let G := group_of n ga in let u := unit_of freq in
  first_group n G (fun v => G 0%nat + (tw - 1) * u <= v) t ->
  first_group n G (fun v => G 0%nat + (tw - 1) * u < v) x ->
  first_group n G (fun v => x + (xw - 1) * u <= v) z ->
  let train := filter (fun i => (G i <=? t) && negb ((x - emb <=? G i) && (G i <? x))) (seq 0 n) in
  let test := filter (fun i => (x <=? G i) && (G i <=? z)) (seq 0 n) in
  let run := fst (wf_split w fuel (XArr n) y ga o) in
  (t = G (n - 1)%nat -> run = mkGen [] Done) /\
  (t < G (n - 1)%nat -> train = [] -> run = mkGen [] (Raised ValueError)) /\
  (t < G (n - 1)%nat -> train <> [] -> (1 <= fuel)%nat -> exists rest, yields run = (train, test) :: rest).
Proof.
  intros e p tw xw st freq w o0 n y ga emb fuel o t x z U G u Ht Hx Hz train test run.
  destruct (wf_use_facts _ _ _ _ _ _ _ _ _ _ _ _ U) as [F [Hgo Hb]]. set (g := the_groups n ga) in *.
  destruct U as [_ _ _ Hu _ _ Hn _ Htw Hxw]. fold u in Hu.
  assert (Conv : forall P v, first_group n G P v -> first_group n (gat g) P v).
  { intros P v [[i [Hi [Ei Pi]]] Hm]. unfold G in *. rewrite Hgo in Ei. split; [exists i; auto|].
    intros k Hk Pk. rewrite <- Hgo in *. apply Hm; auto. }
  apply Conv in Ht. apply Conv in Hx. apply Conv in Hz.
  assert (Es : wf_start w g = Ok (mkWS (gat g 0) t x z)).
  { rewrite (gl_start _ _ _ _ _ _ _ _ F Hn). cbv zeta. fold u. unfold G in *. rewrite Hgo in *.
    rewrite (gl_left _ _ _ _ _ _ _ _ F Hn _ t Ht). cbn [bind].
    rewrite (gl_right _ _ _ _ _ _ _ _ F Hn _ x Hx). cbn [bind].
    rewrite (gl_left _ _ _ _ _ _ _ _ F Hn _ z Hz). reflexivity. }
  assert (I := inv_start _ _ _ _ _ _ _ _ F Hu Htw Hxw Hn _ Es).
  assert (Hs := wk_sorted _ _ _ _ _ _ _ _ F). assert (Hlen := wk_len _ _ _ _ _ _ _ _ F).
  assert (Etr : st_train n emb g (mkWS (gat g 0) t x z) = train).
  { unfold st_train, train. apply filter_ext_in. intros i Hi. apply in_seq in Hi. unfold G. rewrite Hgo. cbn [ws_ts ws_te ws_xs].
    assert (gat g 0 <= gat g i) by (apply Hs; lia). lia. }
  assert (Ete : st_test n g (mkWS (gat g 0) t x z) = test).
  { unfold st_test, test. apply filter_ext_in. intros i Hi. unfold G. rewrite Hgo. reflexivity. }
  assert (Hp := pair_run _ _ _ _ _ _ _ _ F Hn _ I). rewrite Etr, Ete in Hp.
  unfold run, wf_split. rewrite Hb. cbn [x_rows]. fold (the_groups n ga). fold g. rewrite Es.
  unfold G. rewrite Hgo. split; [|split].
  - intros E. destruct fuel; cbn [wf_loop]; rewrite (gl_last _ _ _ _ _ _ _ _ F Hn); cbn [ws_te];
    (destruct (Z.ltb_spec t (gat g (n - 1))); [lia|]); reflexivity.
  - intros E E0. rewrite E0 in Hp. destruct fuel; cbn [wf_loop]; rewrite (gl_last _ _ _ _ _ _ _ _ F Hn); cbn [ws_te];
    (destruct (Z.ltb_spec t (gat g (n - 1))); [|lia]); rewrite Hp; reflexivity.
  - intros E E0 Hf. destruct fuel as [|fuel]; [lia|]. cbn [wf_loop]. rewrite (gl_last _ _ _ _ _ _ _ _ F Hn). cbn [ws_te].
    destruct (Z.ltb_spec t (gat g (n - 1))); [|lia]. rewrite Hp. destruct train as [|q r]; [congruence|].
    destruct (_ >=? _); [eexists; reflexivity|]. destruct (wf_advance w g _); eexists; reflexivity.
Qed.
Print Assumptions C89_first_pair.

(** A concrete use: integer groups with gaps. *)
Example C89_example : exists w o0,
  let ga := GArr (mkG ArrInt [0;1;2;2;4;5;6]) in
  wf_use (DInt 0) (PDelta (DInt 0)) 2 2 SExpanding None w o0 7 YNone ga 0 /\ fst (wf_split w 10 (XArr 7) YNone ga o0) =
    mkGen [([0;1], [2;3;4]); ([0;1;2;3;4], [4;5;6])]%nat Done.
Proof.
  eexists; eexists; split.
  - constructor; try reflexivity; try (simpl; lia); try (simpl; congruence); try (vm_compute; congruence).
    apply sortedb_spec. reflexivity.
  - vm_compute. reflexivity.
Qed.

(** ** What does not hold on groups with gaps *)

(** A sample can be tested twice (and trained on in the same pair): group 4 above. *)
Theorem C89_tested_once_refuted :
  ~ (forall e p tw xw st freq w o0 n y ga emb fuel o j1 j2 tr1 te1 tr2 te2 i,
      wf_use e p tw xw st freq w o0 n y ga emb ->
      let run := yields (fst (wf_split w fuel (XArr n) y ga o)) in
      nth_error run j1 = Some (tr1, te1) -> nth_error run j2 = Some (tr2, te2) -> In i te1 -> In i te2 -> j1 = j2).
Proof.
  intros H. destruct C89_example as [w [o0 [U R]]].
  specialize (H _ _ _ _ _ _ _ _ _ _ _ _ 10%nat o0 0%nat 1%nat [0;1]%nat [2;3;4]%nat [0;1;2;3;4]%nat [4;5;6]%nat 4%nat U).
  cbv zeta in H. rewrite R in H. discriminate H; try reflexivity; simpl; auto.
Qed.
Print Assumptions C89_tested_once_refuted.

(** A run that ends normally can leave a later sample out of every test set: the one of group 6. *)
Example C89_gap_example : exists w o0,
  let ga := GArr (mkG ArrInt [0;1;2;3;5;6;7]) in
  wf_use (DInt 0) (PDelta (DInt 0)) 2 2 SRolling None w o0 7 YNone ga 0 /\ fst (wf_split w 10 (XArr 7) YNone ga o0) =
    mkGen [([0;1], [2;3]); ([2;3], [4]); ([4], [6])]%nat Done.
Proof.
  eexists; eexists; split.
  - constructor; try reflexivity; try (simpl; lia); try (simpl; congruence); try (vm_compute; congruence).
    apply sortedb_spec. reflexivity.
  - vm_compute. reflexivity.
Qed.

Theorem C89_every_later_sample_tested_refuted :
  ~ (forall e p tw xw st freq w o0 n y ga emb fuel o i,
      wf_use e p tw xw st freq w o0 n y ga emb ->
      let run := fst (wf_split w fuel (XArr n) y ga o) in
      ended run = Done -> (i < n)%nat -> group_of n ga 0 + tw * unit_of freq <= group_of n ga i ->
      exists tr te, In (tr, te) (yields run) /\ In i te).
Proof.
  intros H. destruct C89_gap_example as [w [o0 [U R]]].
  specialize (H _ _ _ _ _ _ _ _ _ _ _ _ 10%nat o0 5%nat U).
  cbv zeta in H. rewrite R in H. destruct H as [tr [te [H1 H2]]]; [reflexivity|lia|vm_compute; congruence|].
  simpl in H1. destruct H1 as [H1|[H1|[H1|[]]]]; injection H1 as <- <-; simpl in H2; lia.
Qed.
Print Assumptions C89_every_later_sample_tested_refuted.

(** A run can raise IndexError after it has yielded pairs, because the next test window would start after the last
    group although the current one does not reach it. *)
Example C89_crash_example : exists w o0,
  let ga := GArr (mkG ArrInt [0;1;2;3;5;6;7;8]) in
  wf_use (DInt 0) (PDelta (DInt 0)) 2 2 SRolling None w o0 8 YNone ga 0 /\ fst (wf_split w 10 (XArr 8) YNone ga o0) =
    mkGen [([0;1], [2;3]); ([2;3], [4]); ([4], [6])]%nat (Raised IndexError).
Proof.
  eexists; eexists; split.
  - constructor; try reflexivity; try (simpl; lia); try (simpl; congruence); try (vm_compute; congruence).
    apply sortedb_spec. reflexivity.
  - vm_compute. reflexivity.
Qed.

Theorem C89_completes_after_first_pair_refuted :
  ~ (forall e p tw xw st freq w o0 n y ga emb fuel o,
      wf_use e p tw xw st freq w o0 n y ga emb -> (n <= fuel)%nat ->
      let run := fst (wf_split w fuel (XArr n) y ga o) in
      yields run <> [] -> ended run = Done).
Proof.
  intros H. destruct C89_crash_example as [w [o0 [U R]]].
  specialize (H _ _ _ _ _ _ _ _ _ _ _ _ 10%nat o0 U ltac:(lia)).
  cbv zeta in H. rewrite R in H. discriminate H. discriminate.
Qed.
Print Assumptions C89_completes_after_first_pair_refuted.

(** A run can end normally without yielding any pair, although a later group exists: 5 is both the last training
    group and the first test group. *)
Example C89_silent_example : exists w o0,
  let ga := GArr (mkG ArrInt [0;1;5]) in
  wf_use (DInt 0) (PDelta (DInt 0)) 3 1 SRolling None w o0 3 YNone ga 0 /\ wf_split w 10 (XArr 3) YNone ga o0 = (mkGen [] Done, o0).
Proof.
  eexists; eexists; split.
  - constructor; try reflexivity; try (simpl; lia); try (simpl; congruence); try (vm_compute; congruence).
    apply sortedb_spec. reflexivity.
  - vm_compute. reflexivity.
Qed.

Example C89_too_short_example : exists w o0,
  let ga := GArr (mkG ArrInt [0;1;2]) in
  wf_use (DInt 0) (PDelta (DInt 0)) 2 2 SRolling None w o0 3 YNone ga 0 /\
  ~ (exists x, first_group 3 (group_of 3 ga) (fun v => group_of 3 ga 0 + (2 - 1) * 1 < v) x /\
               x + (2 - 1) * 1 <= group_of 3 ga 2).
Proof.
  eexists; eexists; split.
  - constructor; try reflexivity; try (simpl; lia); try (simpl; congruence); try (vm_compute; congruence).
    apply sortedb_spec. reflexivity.
  - cbv zeta. intros [x [[[i [Hi [E P]]] _] Hle]]. unfold group_of, group_values in *. simpl in *. lia.
Qed.

(** * C90: groups that repeat with the test window *)

(** All groups lie on the grid of the time unit, and the groups are closed under adding the test window, up to the last
    group. Business days with a test window of whole weeks are an example; so is any evenly spaced series. *)
Definition repeats (n : nat) (G : nat -> Z) (u T : Z) : Prop :=
  (forall i, (i < n)%nat -> exists k, G i = G 0%nat + k * u) /\
  (forall i, (i < n)%nat -> G i + T <= G (n - 1)%nat -> exists k, (k < n)%nat /\ G k = G i + T).

Section Periodic.
Variables (tw xw : Z) (st : starg) (freq : option Z) (w : wforward) (n : nat) (emb : Z) (g : groups).
Hypothesis F : wf_facts tw xw st freq w n emb g.
Hypothesis Hu : 0 < unit_of freq.
Hypothesis Htw : 1 <= tw.
Hypothesis Hxw : 1 <= xw.
Hypothesis Hn : (0 < n)%nat.
Let u := unit_of freq.
Let T := xw * u.
Let L := gat g (n - 1).
Let t := gat g 0 + (tw - 1) * u.
Variables (x z : Z).
Hypothesis Hrep : repeats n (gat g) u T.
Hypothesis Ht : exists m, (m < n)%nat /\ gat g m = t.
Hypothesis Hx : first_group n (gat g) (fun v => t < v) x.
Hypothesis Hz : first_group n (gat g) (fun v => x + (xw - 1) * u <= v) z.
Hypothesis Hroom : emb < x - gat g 0.

Definition pstate (j : Z) : wfst :=
  mkWS (match st with SRolling => gat g 0 + j * T | _ => gat g 0 end) (t + j * T) (x + j * T) (Z.min (z + j * T) L).
Definition ptrain (j : Z) : list nat :=
  filter (fun i => (match st with SRolling => gat g 0 + j * T | _ => gat g 0 end <=? gat g i) &&
                   (gat g i <=? t + j * T) && (gat g i + emb <? x + j * T)) (seq 0 n).
Definition ptest (j : Z) : list nat :=
  filter (fun i => (x + j * T <=? gat g i) && (gat g i <=? z + j * T)) (seq 0 n).

Let HT : 0 < T.
Proof. unfold T, u. nia. Qed.
Let Hle : forall i, (i < n)%nat -> gat g i <= L.
Proof. exact (gl_le_L _ _ _ _ _ _ _ _ F Hn). Qed.

Lemma iterate : forall (j : nat) v, (exists i, (i < n)%nat /\ gat g i = v) -> v + Z.of_nat j * T <= L ->
  exists i, (i < n)%nat /\ gat g i = v + Z.of_nat j * T.
Proof.
  induction j as [|j IH]; intros v Hv H; [destruct Hv as [i Hi]; exists i; lia|].
  destruct (IH v Hv) as [i [Hi Ei]]; [nia|]. destruct Hrep as [_ R]. destruct (R i Hi) as [k [Hk Ek]].
  { fold L. nia. }
  exists k. split; auto. nia.
Qed.

(** The next test window starts no later than the last group. *)
Lemma next_start : forall j, z + j * T < L -> x + (j + 1) * T <= L.
Proof.
  intros j H. destruct Hrep as [R _]. destruct (R (n - 1)%nat ltac:(lia)) as [kl El].
  destruct Hx as [[ix [Ix [Ex Px]]] _]. destruct (R ix Ix) as [kx Ekx].
  destruct Hz as [[iz [Iz [Ez Pz]]] _]. fold L in El. rewrite Ex in Ekx.
  assert (x + (xw - 1) * u + j * (xw * u) < L) by (unfold T in H; lia).
  rewrite El, Ekx in *. assert (kx + xw - 1 + j * xw < kl) by (unfold u in *; nia).
  unfold T. assert (kx + (j + 1) * xw <= kl) by lia. unfold u in *; nia.
Qed.

Lemma p_inv : forall j : nat, x + Z.of_nat j * T <= L -> inv n g (pstate (Z.of_nat j)).
Proof.
  intros j H. destruct Hx as [[ix [Ix [Ex Px]]] Mx]. destruct Hz as [[iz [Iz [Ez Pz]]] Mz].
  assert (0 <= (tw - 1) * u) by (unfold u; nia). assert (0 <= (xw - 1) * u) by (unfold u; nia).
  constructor; cbn [pstate ws_ts ws_te ws_xs ws_xe].
  - apply iterate; [exact Ht|]. lia.
  - apply iterate; [exists ix; auto|exact H].
  - destruct (Z.min_spec (z + Z.of_nat j * T) L) as [[C E]|[C E]]; rewrite E.
    + apply iterate; [exists iz; auto|lia].
    + exists (n - 1)%nat; split; [lia|reflexivity].
  - unfold t. destruct st; nia.
  - lia.
  - lia.
Qed.

Lemma p_pair : forall j : nat, x + Z.of_nat j * T <= L ->
  wf_pair w (seq 0 n) g (pstate (Z.of_nat j)) = Ok (ptrain (Z.of_nat j), ptest (Z.of_nat j)).
Proof.
  intros j H. rewrite (pair_run _ _ _ _ _ _ _ _ F Hn _ (p_inv j H)).
  destruct Hx as [[ix [Ix [Ex Px]]] Mx]. destruct (wk_emb _ _ _ _ _ _ _ _ F) as [_ He].
  assert (0 <= (tw - 1) * u) by (unfold u; nia).
  assert (E1 : st_train n emb g (pstate (Z.of_nat j)) = ptrain (Z.of_nat j)).
  { unfold st_train, ptrain. apply filter_ext_in. intros i Hi. apply in_seq in Hi.
    cbn [pstate ws_ts ws_te ws_xs ws_xe]. destruct st; lia. }
  assert (E2 : st_test n g (pstate (Z.of_nat j)) = ptest (Z.of_nat j)).
  { unfold st_test, ptest. apply filter_ext_in. intros i Hi. apply in_seq in Hi.
    cbn [pstate ws_ts ws_te ws_xs ws_xe]. assert (gat g i <= L) by (apply Hle; lia). lia. }
  rewrite E1, E2.
  assert (Hsv : exists q, (q < n)%nat /\ gat g q = match st with SRolling => gat g 0 + Z.of_nat j * T | _ => gat g 0 end).
  { destruct st; try (exists 0%nat; split; [lia|reflexivity]). apply iterate; [exists 0%nat; auto|]. unfold t in *. lia. }
  destruct Hsv as [q [Hq Eq]].
  assert (Hin : In q (ptrain (Z.of_nat j))).
  { unfold ptrain. rewrite filter_In, in_seq. split; [lia|]. rewrite Eq. unfold t in *. destruct st; nia. }
  destruct (ptrain (Z.of_nat j)); [destruct Hin|reflexivity].
Qed.

Lemma p_present : forall v, (exists i, (i < n)%nat /\ gat g i = v) -> getitem g (ss_left g v) = Ok v.
Proof.
  intros v [i [Hi E]]. apply (gl_left _ _ _ _ _ _ _ _ F Hn). split; [exists i; repeat split; auto; lia|auto].
Qed.

Lemma p_advance : forall j : nat, z + Z.of_nat j * T < L ->
  wf_advance w g (pstate (Z.of_nat j)) = Ok (pstate (Z.of_nat (S j))).
Proof.
  intros j H. assert (H1 := next_start _ H). rewrite (gl_advance _ _ _ _ _ _ _ _ F Hn).
  replace (Z.of_nat j + 1) with (Z.of_nat (S j)) in H1 by lia.
  destruct (p_inv (S j) H1) as [A1 A2 A3 _ _ _]. fold u. fold T. fold L.
  assert (Es : forall v, v + Z.of_nat j * T + T = v + Z.of_nat (S j) * T) by (intros; lia).
  cbn [pstate ws_ts ws_te ws_xs ws_xe] in *. rewrite !Es.
  rewrite (p_present _ A1). cbn [bind]. rewrite (p_present _ A2). cbn [bind].
  replace (Z.min (z + Z.of_nat j * T) L) with (z + Z.of_nat j * T) by lia. rewrite Es.
  rewrite (p_present _ A3). cbn [bind]. unfold pstate. destruct st; rewrite ?Es; reflexivity.
Qed.

Lemma p_start : wf_start w g = Ok (pstate 0).
Proof.
  rewrite (gl_start _ _ _ _ _ _ _ _ F Hn). cbv zeta. fold u. fold t.
  rewrite (p_present _ Ht). cbn [bind]. rewrite (gl_right _ _ _ _ _ _ _ _ F Hn _ x Hx). cbn [bind].
  rewrite (gl_left _ _ _ _ _ _ _ _ F Hn _ z Hz). cbn [bind]. unfold pstate.
  destruct Hz as [[iz [Iz [Ez Pz]]] _]. assert (z <= L) by (rewrite <- Ez; apply Hle; auto).
  do 2 f_equal; try lia. destruct st; lia.
Qed.

Lemma p_loop : forall k j fuel o, (k <= fuel)%nat -> (1 <= k)%nat ->
  x + Z.of_nat j * T <= L -> L <= z + (Z.of_nat (j + k) - 1) * T ->
  (k = 1%nat \/ z + (Z.of_nat (j + k) - 2) * T < L) ->
  wf_loop w (seq 0 n) g fuel (pstate (Z.of_nat j)) o =
  (mkGen (map (fun i => (ptrain (Z.of_nat i), ptest (Z.of_nat i))) (seq j k)) Done, bump o k).
Proof.
  induction k as [|k IH]; intros j fuel o Hf Hk H1 H2 H3; [lia|].
  destruct fuel as [|fuel]; [lia|]. cbn [wf_loop]. rewrite (gl_last _ _ _ _ _ _ _ _ F Hn). fold L.
  destruct Hx as [[ix [Ix [Ex Px]]] Mx].
  replace (ws_te (pstate (Z.of_nat j)) <? L) with true by (cbn [pstate ws_te]; lia).
  rewrite (p_pair j H1).
  destruct k as [|k].
  - replace (ws_xe (pstate (Z.of_nat j)) >=? L) with true.
    2:{ cbn [pstate ws_xe]. replace (Z.of_nat (j + 1) - 1) with (Z.of_nat j) in H2 by lia. lia. }
    unfold bump. simpl. reflexivity.
  - assert (H4 : z + Z.of_nat j * T < L).
    { destruct H3 as [H3|H3]; [lia|]. assert (Z.of_nat j * T <= (Z.of_nat (j + S (S k)) - 2) * T) by nia. lia. }
    replace (ws_xe (pstate (Z.of_nat j)) >=? L) with false by (cbn [pstate ws_xe]; lia).
    rewrite (p_advance j H4).
    assert (H5 := next_start _ H4). replace (Z.of_nat j + 1) with (Z.of_nat (S j)) in H5 by lia.
    rewrite (IH (S j) fuel); try lia.
    + cbn [fst snd yields ended seq map]. f_equal. unfold bump. cbn [wo_n wo_fin]. f_equal. lia.
Qed.
End Periodic.

(** The windows of C90: t, x, z are the last training group, the first and the last test group of the first pair. *)
Definition shifted_train (st : starg) (n : nat) (G : nat -> Z) (emb T t x : Z) (j : nat) : list nat :=
  filter (fun i => (match st with SRolling => G 0%nat + Z.of_nat j * T | _ => G 0%nat end <=? G i) &&
                   (G i <=? t + Z.of_nat j * T) && (G i + emb <? x + Z.of_nat j * T)) (seq 0 n).
Definition shifted_test (n : nat) (G : nat -> Z) (T x z : Z) (j : nat) : list nat :=
  filter (fun i => (x + Z.of_nat j * T <=? G i) && (G i <=? z + Z.of_nat j * T)) (seq 0 n).

(** On groups that repeat with the test window, when a sample lies at the nominal end of the training window and the
    embargo leaves part of it, the run completes and every pair is the first pair moved on by whole test windows. *)
Theorem C90_windows_repeat : forall e p tw xw st freq w o0 n y ga emb x z,
  wf_use e p tw xw st freq w o0 n y ga emb ->
  let G := group_of n ga in let u := unit_of freq in let T := xw * u in let t := G 0%nat + (tw - 1) * u in
  repeats n G u T -> (exists m, (m < n)%nat /\ G m = t) ->
  first_group n G (fun v => t < v) x -> first_group n G (fun v => x + (xw - 1) * u <= v) z ->
  emb < x - G 0%nat ->
  exists J, (1 <= J)%nat /\ G (n - 1)%nat <= z + (Z.of_nat J - 1) * T /\
    (J = 1%nat \/ z + (Z.of_nat J - 2) * T < G (n - 1)%nat) /\
  forall fuel o, (J <= fuel)%nat ->
  wf_split w fuel (XArr n) y ga o =
  (mkGen (map (fun j => (shifted_train st n G emb T t x j, shifted_test n G T x z j)) (seq 0 J)) Done, bump o J).
Proof.
  intros e p tw xw st freq w o0 n y ga emb x z U G u T t Hrep Ht Hx Hz Hroom.
  destruct (wf_use_facts _ _ _ _ _ _ _ _ _ _ _ _ U) as [F [Hgo Hb]]. set (g := the_groups n ga) in *.
  destruct U as [_ _ _ Hu _ _ Hn _ Htw Hxw]. fold u in Hu.
  assert (Conv : forall P v, first_group n G P v -> first_group n (gat g) P v).
  { intros P v [[i [Hi [Ei Pi]]] Hm]. unfold G in *. rewrite Hgo in Ei. split; [exists i; auto|].
    intros k Hk Pk. rewrite <- Hgo in *. apply Hm; auto. }
  apply Conv in Hx. apply Conv in Hz.
  assert (Hrep' : repeats n (gat g) u T).
  { destruct Hrep as [R1 R2]. unfold G in R1, R2. split; intros i Hi.
    - destruct (R1 i Hi) as [k E]. rewrite !Hgo in E. exists k; auto.
    - intros H. rewrite <- !Hgo in H. destruct (R2 i Hi H) as [k [Hk E]]. rewrite !Hgo in E. exists k; auto. }
  assert (Ht' : exists m, (m < n)%nat /\ gat g m = gat g 0 + (tw - 1) * u).
  { destruct Ht as [m [Hm E]]. unfold t, G in E. rewrite !Hgo in E. exists m; auto. }
  unfold t, G in Hx. unfold G in Hroom. rewrite Hgo in Hx, Hroom.
  assert (HT : 0 < T) by (unfold T; nia).
  set (q := (Z.max 0 (gat g (n - 1) - z) + T - 1) / T).
  assert (Hdm := Z.div_mod (Z.max 0 (gat g (n - 1) - z) + T - 1) T ltac:(lia)). fold q in Hdm.
  assert (Hmb := Z.mod_pos_bound (Z.max 0 (gat g (n - 1) - z) + T - 1) T HT).
  assert (Hq : 0 <= q) by (unfold q; apply Z.div_pos; lia).
  exists (Z.to_nat (q + 1)). rewrite Z2Nat.id by lia. unfold G at 1 2. rewrite !Hgo.
  assert (J1 : gat g (n - 1) <= z + (q + 1 - 1) * T) by nia.
  assert (J2 : Z.to_nat (q + 1) = 1%nat \/ z + (q + 1 - 2) * T < gat g (n - 1)).
  { destruct (Z.eq_dec q 0) as [E|E]; [left; rewrite E; reflexivity|]. right. nia. }
  split; [lia|]. split; [exact J1|]. split; [exact J2|].
  intros fuel o Hf. unfold wf_split. rewrite Hb. cbn [x_rows]. fold (the_groups n ga). fold g.
  rewrite (p_start _ _ _ _ _ _ _ _ F Hn x z Ht' Hx Hz).
  assert (Hx0 : x <= gat g (n - 1)).
  { destruct Hx as [[ix [Ix [Ex _]]] _]. rewrite <- Ex. apply (gl_le_L _ _ _ _ _ _ _ _ F Hn); auto. }
  change 0 with (Z.of_nat 0) at 1.
  rewrite (p_loop _ _ _ _ _ _ _ _ F Hu Htw Hxw Hn x z Hrep' Ht' Hx Hz Hroom (Z.to_nat (q + 1)) 0 fuel o); auto; try lia.
  - do 2 f_equal. apply map_ext. intros j. f_equal.
    + unfold ptrain, shifted_train. apply filter_ext. intros i. unfold t, G. rewrite !Hgo. reflexivity.
    + unfold ptest, shifted_test. apply filter_ext. intros i. unfold G. rewrite !Hgo. reflexivity.
Qed.
Print Assumptions C90_windows_repeat.

(** The number of windows never exceeds the number of samples. *)
Lemma repeat_run : forall e p tw xw st freq w o0 n y ga emb x z,
  wf_use e p tw xw st freq w o0 n y ga emb ->
  let G := group_of n ga in let u := unit_of freq in let T := xw * u in let t := G 0%nat + (tw - 1) * u in
  repeats n G u T -> (exists m, (m < n)%nat /\ G m = t) ->
  first_group n G (fun v => t < v) x -> first_group n G (fun v => x + (xw - 1) * u <= v) z ->
  emb < x - G 0%nat ->
  exists J, (1 <= J <= n)%nat /\ G (n - 1)%nat <= z + (Z.of_nat J - 1) * T /\
  forall fuel o, (n <= fuel)%nat ->
  wf_split w fuel (XArr n) y ga o =
  (mkGen (map (fun j => (shifted_train st n G emb T t x j, shifted_test n G T x z j)) (seq 0 J)) Done, bump o J).
Proof.
  intros e p tw xw st freq w o0 n y ga emb x z U G u T t Hrep Ht Hx Hz Hroom.
  destruct (C90_windows_repeat _ _ _ _ _ _ _ _ _ _ _ _ x z U Hrep Ht Hx Hz Hroom) as [J [J1 [J2 [_ H]]]].
  assert (HJ : (J <= n)%nat).
  { destruct (C14_walk_forward_terminates _ _ _ _ _ _ _ _ (XArr n) y ga o0 (Nat.max J n) (wu_init _ _ _ _ _ _ _ _ _ _ _ _ U)
      (wu_unit _ _ _ _ _ _ _ _ _ _ _ _ U) (wu_xw _ _ _ _ _ _ _ _ _ _ _ _ U)) as [_ C].
    - cbn [x_rows]. rewrite (wu_len _ _ _ _ _ _ _ _ _ _ _ _ U). lia.
    - rewrite (H (Nat.max J n) o0 ltac:(lia)) in C. cbn [x_rows fst yields] in C.
      rewrite map_length, seq_length, (wu_len _ _ _ _ _ _ _ _ _ _ _ _ U) in C. exact C. }
  exists J. split; [lia|]. split; [exact J2|]. intros fuel o Hf. apply H. lia.
Qed.

(** In that situation every training group lies before every test group by more than the embargo. *)
Theorem C90_no_leak : forall e p tw xw st freq w o0 n y ga emb x z,
  wf_use e p tw xw st freq w o0 n y ga emb ->
  let G := group_of n ga in let u := unit_of freq in let T := xw * u in let t := G 0%nat + (tw - 1) * u in
  repeats n G u T -> (exists m, (m < n)%nat /\ G m = t) ->
  first_group n G (fun v => t < v) x -> first_group n G (fun v => x + (xw - 1) * u <= v) z ->
  emb < x - G 0%nat ->
  forall fuel o tr te i k, (n <= fuel)%nat -> In (tr, te) (yields (fst (wf_split w fuel (XArr n) y ga o))) ->
  In i tr -> In k te -> G i < G k /\ G i + emb < G k.
Proof.
  intros e p tw xw st freq w o0 n y ga emb x z U G u T t Hrep Ht Hx Hz Hroom fuel o tr te i k Hf Hin Hi Hk.
  destruct (repeat_run _ _ _ _ _ _ _ _ _ _ _ _ x z U Hrep Ht Hx Hz Hroom) as [J [_ [_ H]]].
  rewrite (H fuel o Hf) in Hin. cbn [fst yields] in Hin. apply in_map_iff in Hin as [j [E _]].
  apply pair_equal_spec in E as [<- <-]. unfold shifted_train in Hi. unfold shifted_test in Hk. rewrite filter_In in Hi, Hk.
  destruct Hx as [[ix [Ix [Ex Px]]] _]. destruct Hi as [_ Hi]. destruct Hk as [_ Hk]. apply andb_prop in Hi as [Hi Hi3]. apply andb_prop in Hi as [Hi1 Hi2]. apply andb_prop in Hk as [Hk1 Hk2]. fold u in Hi2, Hi3, Hk1. fold T in Hi2, Hi3, Hk1. fold G in Hi2, Hi3, Hk1. fold t in Hi2. lia.
Qed.
Print Assumptions C90_no_leak.

(** If moreover a sample lies at the nominal end of the first test window, the test sets partition the samples from
    the first test group on: every such sample is in exactly one of them, no other sample is in any. *)
Theorem C90_tested_once : forall e p tw xw st freq w o0 n y ga emb x,
  wf_use e p tw xw st freq w o0 n y ga emb ->
  let G := group_of n ga in let u := unit_of freq in let T := xw * u in let t := G 0%nat + (tw - 1) * u in
  repeats n G u T -> (exists m, (m < n)%nat /\ G m = t) ->
  first_group n G (fun v => t < v) x -> (exists m, (m < n)%nat /\ G m = x + (xw - 1) * u) ->
  emb < x - G 0%nat ->
  forall fuel o, (n <= fuel)%nat ->
  let run := fst (wf_split w fuel (XArr n) y ga o) in
  ended run = Done /\
  forall i, (i < n)%nat ->
  (t < G i -> exists j tr te, nth_error (yields run) j = Some (tr, te) /\ In i te /\
     forall j' tr' te', nth_error (yields run) j' = Some (tr', te') -> In i te' -> j' = j) /\
  (G i <= t -> forall tr te, In (tr, te) (yields run) -> ~ In i te).
Proof.
  intros e p tw xw st freq w o0 n y ga emb x U G u T t Hrep Ht Hx Hm Hroom fuel o Hf run.
  assert (Hz : first_group n G (fun v => x + (xw - 1) * u <= v) (x + (xw - 1) * u)).
  { destruct Hm as [m [Hm Em]]. split; [exists m; repeat split; auto; lia|auto]. }
  destruct (repeat_run _ _ _ _ _ _ _ _ _ _ _ _ x _ U Hrep Ht Hx Hz Hroom) as [J [HJ [HL H]]].
  fold u in HL, H. fold T in HL, H. fold G in HL, H. fold t in H.
  unfold run. rewrite (H fuel o Hf). cbn [fst yields ended]. split; [reflexivity|].
  assert (HT : 0 < T) by (unfold T; assert (A := wu_xw _ _ _ _ _ _ _ _ _ _ _ _ U); assert (B := wu_unit _ _ _ _ _ _ _ _ _ _ _ _ U); fold u in B; nia).
  assert (Hnth : forall j a b, nth_error (map (fun j => (shifted_train st n G emb T t x j, shifted_test n G T x (x + (xw - 1) * u) j)) (seq 0 J)) j = Some (a, b) ->
     (j < J)%nat /\ b = shifted_test n G T x (x + (xw - 1) * u) j).
  { intros j a b E. rewrite nth_error_map in E. destruct (nth_error (seq 0 J) j) as [q|] eqn:Eq; [|discriminate].
    assert (j < J)%nat by (rewrite <- (seq_length J 0); apply nth_error_Some; congruence).
    rewrite (nth_error_nth' _ 0%nat), seq_nth in Eq by (rewrite ?seq_length; lia). injection Eq as <-.
    simpl in E. injection E as _ <-. auto. }
  intros i Hi. split.
  - intros Hgt. destruct Hx as [[ix [Ix [Ex Px]]] Mx]. assert (Hxi := Mx i Hi Hgt).
    set (q := (G i - x) / T). assert (Hq0 : 0 <= q) by (apply Z.div_pos; lia).
    assert (Hdm := Z.div_mod (G i - x) T ltac:(lia)). fold q in Hdm.
    assert (Hmb := Z.mod_pos_bound (G i - x) T HT).
    (* grid: the remainder is a multiple of the unit, hence at most T - u *)
    destruct Hrep as [R _]. destruct (R i Hi) as [ki Eki]. destruct (R ix Ix) as [kx Ekx].
    assert (Hu := wu_unit _ _ _ _ _ _ _ _ _ _ _ _ U). fold u in Hu.
    assert (Hup : G i <= x + (xw - 1) * u + q * T).
    { rewrite Ex in Ekx. assert (G i < x + (q + 1) * T) by nia. unfold T in *. rewrite Ekx, Eki in *.
      assert (ki < kx + (q + 1) * xw) by nia. assert (ki <= kx + xw - 1 + q * xw) by lia. nia. }
    assert (Hlo : x + q * T <= G i) by nia.
    assert (HiL : G i <= G (n - 1)%nat).
    { assert (A := wu_sorted _ _ _ _ _ _ _ _ _ _ _ _ U). unfold G, group_of. apply A; [lia|].
      rewrite (wu_len _ _ _ _ _ _ _ _ _ _ _ _ U). lia. }
    assert (HqJ : (Z.to_nat q < J)%nat).
    { assert (q * T < Z.of_nat J * T); [|nia]. assert (x + q * T <= x + (xw - 1) * u + (Z.of_nat J - 1) * T) by lia.
      assert (T = (xw - 1) * u + u) by (unfold T; lia). nia. }
    exists (Z.to_nat q). eexists. eexists. split.
    { rewrite nth_error_map, (nth_error_nth' _ 0%nat), seq_nth by (rewrite ?seq_length; lia). simpl. reflexivity. }
    split.
    { unfold shifted_test. rewrite filter_In, in_seq, Z2Nat.id by lia. split; lia. }
    intros j' tr' te' E Hin. apply Hnth in E as [Hj ->]. unfold shifted_test in Hin. rewrite filter_In in Hin.
    assert (B1 : x + Z.of_nat j' * T <= G i) by lia. assert (B2 : G i <= x + (xw - 1) * u + Z.of_nat j' * T) by lia.
    assert (T = (xw - 1) * u + u) by (unfold T; lia).
    assert (Z.of_nat j' * T < (q + 1) * T) by lia. assert (q * T < (Z.of_nat j' + 1) * T) by lia.
    assert (Z.of_nat j' < q + 1) by nia. assert (q < Z.of_nat j' + 1) by nia. lia.
  - intros Hlt tr te Hin Hc. apply in_map_iff in Hin as [j [E _]]. injection E as _ <-.
    unfold shifted_test in Hc. rewrite filter_In in Hc. destruct Hx as [[ix [Ix [Ex Px]]] _].
    assert (0 <= Z.of_nat j * T) by nia. lia.
Qed.
Print Assumptions C90_tested_once.

(** Business days (Wednesday 7 January 1970 to Thursday 29 January 1970), freq one day, training and test windows of
    one week, embargo one day: the hypotheses hold, and the run is the three weeks expected. *)
Definition business_days : list Z :=
  map (fun k => k * 86400000000000) [6;7;8; 11;12;13;14;15; 18;19;20;21;22; 25;26;27;28].

Example C90_example : exists w o0,
  let d := 86400000000000 in
  let ga := GArr (mkG DtiTime business_days) in
  let G := group_of 17 ga in
  wf_use (DInt 1) (PDelta (DInt 0)) 7 7 SRolling (Some d) w o0 17 YNone ga (1 * d) /\
  repeats 17 G d (7 * d) /\ (exists m, (m < 17)%nat /\ G m = G 0%nat + (7 - 1) * d) /\
  first_group 17 G (fun v => G 0%nat + (7 - 1) * d < v) (13 * d) /\
  (exists m, (m < 17)%nat /\ G m = 13 * d + (7 - 1) * d) /\ 1 * d < 13 * d - G 0%nat /\
  fst (wf_split w 17 (XArr 17) YNone ga o0) =
    mkGen [([0;1;2;3], [5;6;7;8;9]); ([5;6;7;8], [10;11;12;13;14]); ([10;11;12;13], [15;16])]%nat Done.
Proof.
  assert (Dom : forall (P : nat -> Prop), P 0%nat -> P 1%nat -> P 2%nat -> P 3%nat -> P 4%nat -> P 5%nat -> P 6%nat ->
    P 7%nat -> P 8%nat -> P 9%nat -> P 10%nat -> P 11%nat -> P 12%nat -> P 13%nat -> P 14%nat -> P 15%nat -> P 16%nat ->
    forall i, (i < 17)%nat -> P i).
  { intros. do 17 (destruct i as [|i]; [assumption|]). lia. }
  eexists; eexists. cbv zeta. split; [|split; [|split; [|split; [|split; [|split]]]]].
  - constructor; try reflexivity; try (simpl; lia); try (simpl; congruence); try (vm_compute; congruence).
    apply sortedb_spec. vm_compute. reflexivity.
  - split.
    + match goal with |- forall i, _ -> @?P i => apply (Dom P); cbv beta end; [exists 0|exists 1|exists 2|exists 5|exists 6|exists 7|exists 8|exists 9|exists 12|exists 13|exists 14|exists 15|exists 16|exists 19|exists 20|exists 21|exists 22]; vm_compute; reflexivity.
    + match goal with |- forall i, _ -> @?P i => apply (Dom P); cbv beta end; intros H;
      [exists 5%nat|exists 6%nat|exists 7%nat|exists 8%nat|exists 9%nat|exists 10%nat|exists 11%nat|exists 12%nat|exists 13%nat|exists 14%nat|exists 15%nat|exists 16%nat|exists 0%nat|exists 0%nat|exists 0%nat|exists 0%nat|exists 0%nat];
      first [split; [lia|vm_compute; reflexivity] | exfalso; revert H; vm_compute; intros H; apply H; reflexivity].
  - exists 4%nat. split; [lia|vm_compute; reflexivity].
  - split; [exists 5%nat; split; [lia|split; vm_compute; reflexivity]|].
    match goal with |- forall i, _ -> @?P i => apply (Dom P); cbv beta end; intros H; vm_compute in H; try discriminate H; vm_compute; congruence.
  - exists 9%nat. split; [lia|vm_compute; reflexivity].
  - vm_compute. reflexivity.
  - vm_compute. reflexivity.
Qed.
