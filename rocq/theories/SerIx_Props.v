(** Property C119: groups given as a Series whose index is not 0, 1, 2, ... *)
From Coq Require Import List ZArith Bool Arith Lia Sorted.
From Verif Require Import Base Split_Model Split_Proofs Split_Props Kfold_Proofs SerIx_Model.
Import ListNotations.
Open Scope Z_scope.

(** the value the Series has at label k *)
Definition labelled (s : sgroups) (k v : Z) : Prop := exists j, nth_error (sg_lab s) j = Some k /\ nth_error (sg_val s) j = Some v.
(** a well-formed Series: one label per value, no label twice *)
Definition series (s : sgroups) : Prop := length (sg_lab s) = length (sg_val s) /\ NoDup (sg_lab s).

Lemma at_label_spec : forall s k, series s -> (forall v, at_label s k = Ok v <-> labelled s k v) /\ (at_label s k = Raise KeyError <-> ~ In k (sg_lab s)) /\ (forall e, at_label s k = Raise e -> e = KeyError).
Proof.
  intros s k [L N]. unfold at_label, labelled. revert L N. generalize (sg_val s). induction (sg_lab s) as [|a l IH]; intros [|b vs] L N; try discriminate.
  - cbn [combine find]. split; [|split]. + intros v. split; [discriminate|]. intros ([|j] & H & _); discriminate. + split; auto. + congruence.
  - injection L as L. inversion N as [|? ? Na Nl]; subst. specialize (IH vs L Nl). cbn [combine find fst]. destruct (Z.eqb_spec a k) as [->|D].
    + cbn [snd]. split; [|split; [split; [discriminate|intros H; exfalso; apply H; now left]|discriminate]]. intros v. split.
      * intros [= <-]. exists 0%nat. split; reflexivity.
      * intros ([|j] & H1 & H2); cbn [nth_error] in *; [congruence|]. exfalso. apply Na. eapply nth_error_In. exact H1.
    + destruct IH as (I1 & I2 & I3). split; [|split; [|exact I3]].
      * intros v. rewrite I1. split; [intros (j & H); exists (S j); exact H|intros ([|j] & H1 & H2); [cbn in H1; congruence|exists j; auto]].
      * rewrite I2. cbn [In]. split; [intros H [K|K]; auto; congruence|intros H K; apply H; now right].
Qed.

(* ------------------------------------------------------------------ *)
(** ** with the index 0, 1, 2, ... labels are positions *)
Lemma at_label_default : forall s i, sg_lab s = map Z.of_nat (seq 0 (length (sg_val s))) -> at_label s (Z.of_nat i) = getitem (sg_pos s) i.
Proof.
  intros s i H. unfold at_label, getitem. rewrite H. cbn [sg_pos g_val]. assert (Hs : is_series (g_kind (sg_pos s)) = true) by (unfold sg_pos; destruct (sg_time s); reflexivity).
  change (g_kind {| g_kind := _; g_val := sg_val s |}) with (g_kind (sg_pos s)). rewrite Hs.
  assert (Q : forall (vs : list Z) a, find (fun p => fst p =? Z.of_nat i) (combine (map Z.of_nat (seq a (length vs))) vs) = if Nat.ltb i a then None else option_map (fun v => (Z.of_nat i, v)) (nth_error vs (i - a))).
  { induction vs as [|v vs IH]; intros a; [cbn [length seq map combine find]; destruct (Nat.ltb i a); [reflexivity|destruct (i - a)%nat; reflexivity]|]. cbn [length seq map combine find fst]. destruct (Z.eqb_spec (Z.of_nat a) (Z.of_nat i)) as [E|E].
    - assert (a = i) by lia. subst a. rewrite (proj2 (Nat.ltb_ge i i)) by lia. rewrite Nat.sub_diag. reflexivity.
    - rewrite IH. destruct (Nat.ltb_spec i (S a)), (Nat.ltb_spec i a); try lia; [reflexivity|]. replace (i - a)%nat with (S (i - S a)) by lia. reflexivity. }
  rewrite Q. cbn [Nat.ltb Nat.leb]. rewrite Nat.sub_0_r. destruct (nth_error (sg_val s) i); reflexivity.
Qed.
Lemma mapM_default : forall s ix, sg_lab s = map Z.of_nat (seq 0 (length (sg_val s))) -> mapM (fun i => at_label s (Z.of_nat i)) ix = mapM (getitem (sg_pos s)) ix.
Proof. intros s ix H. induction ix as [|i ix IH]; [reflexivity|]. cbn [mapM]. rewrite at_label_default, IH by auto. reflexivity. Qed.

Theorem C119_default : forall c X y s, sg_lab s = map Z.of_nat (seq 0 (length (sg_val s))) -> s_kfold_split c X y s = kfold_split c X y (GArr (sg_pos s)).
Proof.
  intros c X y s H. assert (K : g_kind (sg_pos s) = SerInt \/ g_kind (sg_pos s) = SerTime) by (unfold sg_pos; destruct (sg_time s); auto).
  assert (Emx : forall ix, s_max s ix = sel_max (sg_pos s) ix) by (intros ix; unfold s_max, sel_max; rewrite mapM_default by auto; destruct (mapM (getitem (sg_pos s)) ix) as [[|v t]|]; cbn [bind]; auto; destruct K as [-> | ->]; reflexivity).
  assert (Emn : forall ix, s_min s ix = sel_min (sg_pos s) ix) by (intros ix; unfold s_min, sel_min; rewrite mapM_default by auto; destruct (mapM (getitem (sg_pos s)) ix) as [[|v t]|]; cbn [bind]; auto; destruct K as [-> | ->]; reflexivity).
  assert (Enx : forall v, s_next s v = next_group (sg_pos s) v).
  { intros v. unfold s_next, next_group. change 0 with (Z.of_nat 0). rewrite at_label_default by auto. unfold getitem. assert (Hs : is_series (g_kind (sg_pos s)) = true) by (destruct K as [-> | ->]; reflexivity). rewrite Hs.
    destruct (g_val (sg_pos s)); reflexivity. }
  assert (Emod : forall rest cur, s_modify s cur rest = modify_fold_bounds (sg_pos s) cur rest).
  { induction rest as [|nxt rest IH]; intros cur; [reflexivity|]. cbn [s_modify modify_fold_bounds]. rewrite !at_label_default by auto. destruct (getitem (sg_pos s) (snd cur)) as [lg|]; cbn [bind]; [|reflexivity].
    destruct (getitem (sg_pos s) (fst nxt)) as [fg|]; cbn [bind]; [|reflexivity]. destruct (lg =? fg); [|rewrite IH; reflexivity]. rewrite Enx. destruct (next_group (sg_pos s) lg) as [ng|]; cbn [bind]; [|reflexivity].
    destruct (rev (where_eq (sg_pos s) lg)); cbn [bind]; [reflexivity|]. destruct (where_eq (sg_pos s) ng); cbn [bind]; [reflexivity|]. rewrite IH. reflexivity. }
  assert (Etr : forall ix t l e p, s_train ix t s l e p = kfold_train ix t (sg_pos s) l e p).
  { intros ix t l e p. unfold s_train, kfold_train. assert (E1 : s_train_index ix t s l = get_train_index_per_split ix t (sg_pos s) l) by (unfold s_train_index, get_train_index_per_split; destruct l; [|reflexivity]; destruct t as [|t0 t]; [reflexivity|]; rewrite at_label_default by auto; reflexivity).
    rewrite E1. destruct (get_train_index_per_split ix t (sg_pos s) l) as [tr|]; cbn [bind]; [|reflexivity].
    assert (E2 : s_purge tr t ix s p = purge tr t ix (sg_pos s) p) by (unfold s_purge, purge; rewrite Emx; reflexivity). rewrite E2. destruct (purge tr t ix (sg_pos s) p) as [tr'|]; cbn [bind]; [|reflexivity].
    unfold s_embargo, embargo. rewrite Emn. reflexivity. }
  assert (Elp : forall ix l e p ts, s_loop ix s l e p ts = kfold_loop ix (sg_pos s) l e p ts).
  { intros ix l e p ts. induction ts as [|t ts IH]; [reflexivity|]. cbn [s_loop kfold_loop]. rewrite Etr, IH. reflexivity. }
  unfold s_kfold_split, kfold_split, kfold_prepare. destruct (basecv_split X y (GArr (sg_pos s))) as [u|]; cbn [bind]; [|reflexivity].
  destruct (validate_split_settings (x_rows X) (kf_folds c) (kf_embargo c) (kf_purge c)) as [u'|]; cbn [bind]; [|reflexivity]. cbn [g_val sg_pos].
  destruct (Nat.eqb (length (sg_val s)) (length (seq 0 (x_rows X)))); [|reflexivity].
  destruct (mapM fold_bound (array_split (seq 0 (x_rows X)) (Z.to_nat (kf_folds c)))) as [bs|]; cbn [bind]; [|reflexivity].
  assert (Em : s_modify_all s bs = modify_fold_bounds_all (sg_pos s) bs) by (unfold s_modify_all, modify_fold_bounds_all; destruct bs; auto). rewrite Em. fold (sg_pos s).
  destruct (modify_fold_bounds_all (sg_pos s) bs) as [bs'|]; cbn [bind]; [|reflexivity]. rewrite Elp. destruct (kf_freq c); reflexivity.
Qed.
Print Assumptions C119_default.

(* ------------------------------------------------------------------ *)
(** ** with any other index purging and embargo are measured from the values that carry the test positions as labels *)
(** sample i lies after all values labelled by a test position, but within d of the last of them *)
Definition label_purge_zone (s : sgroups) (test : list nat) (d : Z) (i : nat) : Prop :=
  (forall j w, In j test -> labelled s (Z.of_nat j) w -> w < nth i (sg_val s) 0) /\
  (exists j w, In j test /\ labelled s (Z.of_nat j) w /\ nth i (sg_val s) 0 <= w + d).
(** sample i lies before all values labelled by a test position, but within d of the first of them *)
Definition label_embargo_zone (s : sgroups) (test : list nat) (d : Z) (i : nat) : Prop :=
  (forall j w, In j test -> labelled s (Z.of_nat j) w -> nth i (sg_val s) 0 < w) /\
  (exists j w, In j test /\ labelled s (Z.of_nat j) w /\ w - d <= nth i (sg_val s) 0).

Lemma mapM_labels : forall s ix vs, series s -> mapM (fun i => at_label s (Z.of_nat i)) ix = Ok vs ->
  (forall j, In j ix -> exists w, labelled s (Z.of_nat j) w /\ In w vs) /\ (forall w, In w vs -> exists j, In j ix /\ labelled s (Z.of_nat j) w) /\ (vs = [] -> ix = []).
Proof.
  intros s ix vs Hs. revert vs. induction ix as [|i ix IH]; intros vs E.
  - injection E as <-. repeat split; auto; intros ? [].
  - cbn [mapM] in E. destruct (at_label s (Z.of_nat i)) as [v|] eqn:Ev; [|discriminate]. cbn [bind] in E. destruct (mapM _ ix) as [ws|] eqn:Ew; [|discriminate]. injection E as <-.
    destruct (IH ws eq_refl) as (A & B & C). apply (at_label_spec s (Z.of_nat i) Hs) in Ev. repeat split.
    + intros j [<-|Hj]; [exists v; split; [exact Ev|now left]|]. destruct (A j Hj) as (w & W1 & W2). exists w; split; [exact W1|now right].
    + intros w [<-|Hw]; [exists i; split; [now left|exact Ev]|]. destruct (B w Hw) as (j & J1 & J2). exists j; split; [now right|exact J2].
    + discriminate.
Qed.
Lemma labelled_fun : forall s k v w, series s -> labelled s k v -> labelled s k w -> v = w.
Proof. intros s k v w Hs A B. apply (proj1 (at_label_spec s k Hs)) in A, B. congruence. Qed.
Lemma s_max_spec : forall s ix o, series s -> ix <> [] -> s_max s ix = Ok o ->
  exists m, o = Some m /\ (exists j, In j ix /\ labelled s (Z.of_nat j) m) /\ (forall j w, In j ix -> labelled s (Z.of_nat j) w -> w <= m).
Proof.
  intros s ix o Hs Hx E. unfold s_max in E. destruct (mapM _ ix) as [vs|] eqn:Ev; [|discriminate]. cbn [bind] in E. destruct (mapM_labels _ _ _ Hs Ev) as (A & B & C).
  destruct vs as [|v t]; [exfalso; apply Hx; auto|]. injection E as <-. exists (zmax_list v t). destruct (zmax_list_spec t v) as [M1 M2]. split; [reflexivity|]. split.
  - apply B. destruct M1 as [-> |M1]; [now left|now right].
  - intros j w Hj Hw. destruct (A j Hj) as (w' & W1 & W2). rewrite (labelled_fun _ _ _ _ Hs Hw W1). destruct M2 as [M2 M3]. destruct W2 as [<-|W2]; [exact M2|now apply M3].
Qed.
Lemma s_min_spec : forall s ix o, series s -> ix <> [] -> s_min s ix = Ok o ->
  exists m, o = Some m /\ (exists j, In j ix /\ labelled s (Z.of_nat j) m) /\ (forall j w, In j ix -> labelled s (Z.of_nat j) w -> m <= w).
Proof.
  intros s ix o Hs Hx E. unfold s_min in E. destruct (mapM _ ix) as [vs|] eqn:Ev; [|discriminate]. cbn [bind] in E. destruct (mapM_labels _ _ _ Hs Ev) as (A & B & C).
  destruct vs as [|v t]; [exfalso; apply Hx; auto|]. injection E as <-. exists (zmin_list v t). destruct (zmin_list_spec t v) as [M1 M2]. split; [reflexivity|]. split.
  - apply B. destruct M1 as [-> |M1]; [now left|now right].
  - intros j w Hj Hw. destruct (A j Hj) as (w' & W1 & W2). rewrite (labelled_fun _ _ _ _ Hs Hw W1). destruct M2 as [M2 M3]. destruct W2 as [<-|W2]; [exact M2|now apply M3].
Qed.

Lemma s_purge_ok : forall train test n s d r, series s -> test <> [] -> (forall i, In i train -> (i < n)%nat) -> s_purge train test (seq 0 n) s d = Ok r ->
  r <> [] /\ StronglySorted lt r /\ forall i, In i r <-> In i train /\ ~ label_purge_zone s test (magnitude d) i.
Proof.
  intros train test n s d r Hs Ht Hi E. unfold s_purge in E. apply bind_ok in E as (u & _ & E). apply bind_ok in E as (mx & Em & E). destruct (s_max_spec _ _ _ Hs Ht Em) as (m & -> & (jx & J1 & J2) & J3).
  apply bind_ok in E as (hi & Eh & E). apply plus_delta_o_some in Eh. subst hi. apply bind_ok in E as (pg & Ep & E). apply mask_select_seq in Ep as [_ ->]. cbv zeta in E.
  destruct (setdiff1d train _) eqn:Es; [discriminate|]. rewrite <- Es in E. match type of E with Ok ?a = Ok r => assert (Hr : r = a) by congruence end. clear E.
  assert (Hm : forall i, In i r <-> In i train /\ ~ label_purge_zone s test (magnitude d) i).
  { intros i. subst r. rewrite !In_setdiff1d, filter_In, in_seq. unfold cmp_o. rewrite andb_true_iff, Z.leb_le, Z.gtb_lt. change (gat (sg_pos s) i) with (nth i (sg_val s) 0). change (dval d) with (magnitude d). unfold label_purge_zone. split.
    - intros [[A B] _]. split; [exact A|]. intros [C (j & w & D1 & D2 & D3)]. apply B. specialize (Hi i A). specialize (J3 j w D1 D2). specialize (C jx m J1 J2). lia.
    - intros [A B]. assert (N : ~ ((0 <= i < 0 + n)%nat /\ nth i (sg_val s) 0 <= m + magnitude d /\ m < nth i (sg_val s) 0)).
      { intros (_ & C1 & C2). apply B. split; [intros j w D1 D2; specialize (J3 j w D1 D2); lia|exists jx, m; auto]. } tauto. }
  split; [|split; [subst r; apply setdiff1d_sorted|exact Hm]]. intros ->. assert (Q : In n0 (setdiff1d train (filter (fun i : nat => cmp_o Z.leb (gat (sg_pos s) i) (Some (m + dval d)) && cmp_o Z.gtb (gat (sg_pos s) i) (Some m)) (seq 0 n)))) by (rewrite Es; now left).
  assert (Q' := Q). rewrite In_setdiff1d in Q. destruct Q as [_ Q]. assert (X : In n0 (@nil nat)) by (rewrite Hr, In_setdiff1d; auto). destruct X.
Qed.
Lemma s_embargo_ok : forall train test n s d r, series s -> test <> [] -> (forall i, In i train -> (i < n)%nat) -> s_embargo train test (seq 0 n) s d = Ok r ->
  r <> [] /\ StronglySorted lt r /\ forall i, In i r <-> In i train /\ ~ label_embargo_zone s test (magnitude d) i.
Proof.
  intros train test n s d r Hs Ht Hi E. unfold s_embargo in E. apply bind_ok in E as (u & _ & E). apply bind_ok in E as (mn & Em & E). destruct (s_min_spec _ _ _ Hs Ht Em) as (m & -> & (jx & J1 & J2) & J3).
  apply bind_ok in E as (lo & Eh & E). apply plus_delta_o_some in Eh. subst lo. apply bind_ok in E as (pg & Ep & E). apply mask_select_seq in Ep as [_ ->]. cbv zeta in E.
  destruct (setdiff1d train _) eqn:Es; [discriminate|]. rewrite <- Es in E. match type of E with Ok ?a = Ok r => assert (Hr : r = a) by congruence end. clear E.
  split; [rewrite Hr, Es; discriminate|]. split; [rewrite Hr; apply setdiff1d_sorted|].
  intros i. subst r. rewrite !In_setdiff1d, filter_In, in_seq. unfold cmp_o. rewrite andb_true_iff, Z.geb_le, Z.ltb_lt. change (gat (sg_pos s) i) with (nth i (sg_val s) 0). rewrite dval_neg. change (dval d) with (magnitude d). unfold label_embargo_zone. split.
  - intros [A B]. split; [exact A|]. intros [C (j & w & D1 & D2 & D3)]. apply B. specialize (Hi i A). specialize (J3 j w D1 D2). specialize (C jx m J1 J2). lia.
  - intros [A B]. split; [exact A|]. intros (_ & C1 & C2). apply B. split; [intros j w D1 D2; specialize (J3 j w D1 D2); lia|exists jx, m; split; [auto|split; [auto|lia]]].
Qed.

(** distinct values and labels: no two folds are joined *)
Lemma s_modify_distinct : forall s rest cur p q, series s -> NoDup (sg_val s) -> adj p (cur :: rest) q -> forall bs, s_modify s cur rest = Ok bs -> bs = cur :: rest.
Proof.
  intros s rest. induction rest as [|nxt rest IH]; intros cur p q Hs Nv Ha bs E; [injection E as <-; reflexivity|]. cbn [s_modify] in E.
  apply bind_ok in E as (lg & E1 & E). apply bind_ok in E as (fg & E2 & E). cbn [adj] in Ha.
  assert (D : snd cur <> fst nxt) by (destruct cur, nxt; cbn [fst snd] in *; intuition lia).
  apply (proj1 (at_label_spec _ _ Hs)) in E1, E2. destruct (Z.eqb_spec lg fg) as [->|].
  - exfalso. destruct E1 as (j1 & A1 & A2), E2 as (j2 & B1 & B2). assert (j1 = j2) by (apply (proj1 (NoDup_nth_error (sg_val s)) Nv); [apply nth_error_Some; congruence|congruence]). subst j2. apply D. assert (Z.of_nat (snd cur) = Z.of_nat (fst nxt)) by congruence. lia.
  - apply bind_ok in E as (tl & E3 & E). injection E as <-. f_equal. destruct cur as [a b]. destruct Ha as (_ & _ & Ha). exact (IH nxt (S b) q Hs Nv Ha tl E3).
Qed.

(** what every yielded pair is, for a Series of distinct timestamps with any index *)
Theorem C119_pairs : forall c n y s tr te, series s -> sg_time s = true -> NoDup (sg_val s) -> 2 <= kf_folds c -> In (tr, te) (yields (s_kfold_split c (XArr n) y s)) ->
  let u := match kf_freq c with Some u => u | None => 1 end in
  In te (array_split (seq 0 n) (Z.to_nat (kf_folds c))) /\ tr <> [] /\ StronglySorted lt tr /\ (forall j, In j te -> In (Z.of_nat j) (sg_lab s)) /\
  forall i, In i tr <-> (i < n)%nat /\ ~ In i te /\ (kf_look c = true -> exists w, labelled s (Z.of_nat (hd 0%nat te)) w /\ nth i (sg_val s) 0 <= w) /\
     ~ label_purge_zone s te (magnitude (kf_purge c) * u) i /\ ~ label_embargo_zone s te (magnitude (kf_embargo c) * u) i.
Proof.
  intros c n y s tr te Hs Ht Nv Hk H u. unfold s_kfold_split in H.
  destruct (basecv_split (XArr n) y (GArr (sg_pos s))) as [u0|]; cbn [bind] in H; [|destruct H]. cbn [x_rows] in H.
  destruct (validate_split_settings n (kf_folds c) (kf_embargo c) (kf_purge c)) as [u1|] eqn:Ev; cbn [bind] in H; [|destruct H].
  assert (Hn : kf_folds c <= Z.of_nat n) by (unfold validate_split_settings in Ev; destruct (Z.ltb_spec (Z.of_nat n) (kf_folds c)); [discriminate|lia]).
  assert (Hd : exists e0 p0, kf_embargo c = DInt e0 /\ kf_purge c = DInt p0).
  { unfold validate_split_settings in Ev. destruct (Z.of_nat n <? kf_folds c); [discriminate|]. destruct (kf_embargo c), (kf_purge c); try discriminate. eauto. }
  destruct Hd as (e0 & p0 & He & Hp). rewrite seq_length in H. destruct (Nat.eqb_spec (length (sg_val s)) n) as [El|]; [|destruct H].
  destruct (array_split_bounds n (Z.to_nat (kf_folds c)) ltac:(lia)) as (bs & B1 & _ & B2 & B3 & B4). rewrite B1 in H. cbn [bind] in H.
  destruct (s_modify_all s bs) as [bs'|] eqn:Em; cbn [bind] in H; [|destruct H].
  assert (bs' = bs).
  { unfold s_modify_all in Em. destruct bs as [|b bs]; [congruence|]. eapply s_modify_distinct; eauto. } subst bs'. rewrite <- B2 in H.
  set (ep := match kf_freq c with Some u => _ | None => _ end) in H.
  assert (Q1 : magnitude (fst ep) = magnitude (kf_embargo c) * u) by (unfold ep, u; rewrite He, Hp; destruct (kf_freq c); cbn [fst to_timedelta magnitude]; lia).
  assert (Q2 : magnitude (snd ep) = magnitude (kf_purge c) * u) by (unfold ep, u; rewrite He, Hp; destruct (kf_freq c); cbn [snd to_timedelta magnitude]; lia).
  assert (Hsub : forall t, In t (if kf_look c then tl (array_split (seq 0 n) (Z.to_nat (kf_folds c))) else array_split (seq 0 n) (Z.to_nat (kf_folds c))) -> In t (array_split (seq 0 n) (Z.to_nat (kf_folds c)))).
  { intros t. destruct (kf_look c); [|auto]. destruct (array_split (seq 0 n) (Z.to_nat (kf_folds c))); [auto|now right]. }
  assert (L : forall ts, (forall t, In t ts -> In t (array_split (seq 0 n) (Z.to_nat (kf_folds c)))) -> In (tr, te) (yields (s_loop (seq 0 n) s (kf_look c) (fst ep) (snd ep) ts)) ->
     In te (array_split (seq 0 n) (Z.to_nat (kf_folds c))) /\ s_train (seq 0 n) te s (kf_look c) (fst ep) (snd ep) = Ok tr).
  { induction ts as [|t ts IH]; intros Hts Hin; [destruct Hin|]. cbn [s_loop] in Hin. destruct (s_train (seq 0 n) t s (kf_look c) (fst ep) (snd ep)) as [r|] eqn:Er; [|destruct Hin]. cbn [yields] in Hin. destruct Hin as [Hin|Hin].
    - injection Hin as <- <-. split; [apply Hts; now left|exact Er].
    - apply IH; [intros t' Ht'; apply Hts; now right|exact Hin]. }
  destruct (L _ Hsub H) as [L1 L2]. clear L H.
  assert (Hte : te <> [] /\ forall j, In j te -> (j < n)%nat).
  { rewrite B2 in L1. apply in_map_iff in L1 as ([a b] & <- & Hab). clear - B3 Hab. assert (G : forall bs p, adj p bs n -> In (a, b) bs -> (a <= b < n)%nat).
    { induction bs0 as [|[a' b'] t IH]; intros p Ha Hin; [destruct Hin|]. destruct Ha as (-> & A1 & A2). destruct Hin as [[= -> ->]|Hin]; [apply adj_le in A2; lia|eapply IH; eauto]. }
    specialize (G _ _ B3 Hab). unfold bound_range. cbn [fst snd]. split; [destruct (S b - a)%nat eqn:E; [lia|discriminate]|intros j Hj; apply in_seq in Hj; lia]. }
  destruct Hte as [Hte Hlt]. split; [exact L1|]. unfold s_train in L2. apply bind_ok in L2 as (t1 & T1 & L2). apply bind_ok in L2 as (t2 & T2 & T3).
  assert (M1 : forall i, In i t1 <-> (i < n)%nat /\ ~ In i te /\ (kf_look c = true -> exists w, labelled s (Z.of_nat (hd 0%nat te)) w /\ nth i (sg_val s) 0 <= w)).
  { intros i. unfold s_train_index in T1. destruct (kf_look c).
    - destruct te as [|t0 te]; [discriminate|]. apply bind_ok in T1 as (g0 & G0 & T1). apply bind_ok in T1 as (la & G1 & T1). injection T1 as <-. apply mask_select_seq in G1 as [_ ->].
      apply (proj1 (at_label_spec _ _ Hs)) in G0. rewrite !In_setdiff1d, filter_In, in_seq, Z.gtb_lt. change (gat (sg_pos s) i) with (nth i (sg_val s) 0). cbn [hd]. split.
      + intros [[A B] C]. split; [lia|]. split; [exact B|]. intros _. exists g0. split; [exact G0|]. destruct (Z_le_gt_dec (nth i (sg_val s) 0) g0); [auto|]. exfalso. apply C. split; [lia|lia].
      + intros (A & B & C). split; [split; [lia|exact B]|]. destruct (C eq_refl) as (w & W1 & W2). rewrite <- (labelled_fun _ _ _ _ Hs G0 W1) in W2. lia.
    - injection T1 as <-. rewrite In_setdiff1d, in_seq. split; [intros [A B]; split; [lia|split; [exact B|discriminate]]|intros (A & B & _); split; [lia|exact B]]. }
  destruct (s_purge_ok _ _ _ _ _ _ Hs Hte (fun i Hi => proj1 (proj1 (M1 i) Hi)) T2) as (_ & _ & M2).
  destruct (s_embargo_ok _ _ _ _ _ _ Hs Hte (fun i Hi => proj1 (proj1 (M1 i) (proj1 (proj1 (M2 i) Hi)))) T3) as (M3 & M4 & M5).
  split; [exact M3|]. split; [exact M4|]. split.
  { intros j Hj. unfold s_purge in T2. apply bind_ok in T2 as (u2 & _ & T2). apply bind_ok in T2 as (mx & Emx & _). unfold s_max in Emx. destruct (mapM _ te) as [vs|] eqn:Evs; [|discriminate].
    destruct (mapM_labels _ _ _ Hs Evs) as (A & _). destruct (A j Hj) as (w & (k & W & _) & _). eapply nth_error_In. exact W. }
  intros i. rewrite M5, M2, M1, Q1, Q2. tauto.
Qed.
Print Assumptions C119_pairs.

(** six days in ascending order that were stored newest first: the index runs 5, 4, ..., 0 *)
Definition days6 : sgroups := mkSG true [5; 4; 3; 2; 1; 0] [0; 1; 2; 3; 4; 5].
Definition three_folds : kfold := mkKF 3 (DInt 0) (DInt 1) false (Some 1).

(** purging then leaves in the training set samples that lie within the purge period after the test fold *)
Theorem C119_leak_refuted : ~ (forall c n y s tr te i, series s -> ascending (sg_val s) -> In (tr, te) (yields (s_kfold_split c (XArr n) y s)) ->
  let u := match kf_freq c with Some u => u | None => 1 end in
  In i tr -> ~ in_purge_zone (sg_pos s) te (magnitude (kf_purge c) * u) i).
Proof.
  intros H. assert (Y : In ([2; 3; 4; 5], [0; 1])%nat (yields (s_kfold_split three_folds (XArr 6) YNone days6))) by (vm_compute; auto).
  assert (Sr : series days6) by (split; [reflexivity|repeat constructor; cbn; intuition discriminate]).
  assert (As : ascending (sg_val days6)) by (apply ascending_nondecr, sortedb_spec; reflexivity).
  apply (H three_folds 6%nat YNone days6 [2; 3; 4; 5]%nat [0; 1]%nat 2%nat Sr As Y (or_introl eq_refl)). unfold in_purge_zone, gv. cbn [sg_pos g_val days6 sg_val kf_freq three_folds kf_purge magnitude]. split.
  - intros j [<-|[<-|[]]]; cbn; lia.
  - exists 1%nat. cbn. split; [auto|lia].
Qed.
Print Assumptions C119_leak_refuted.

Example C119_example : series days6 /\ NoDup (sg_val days6) /\
  yields (s_kfold_split three_folds (XArr 6) YNone days6) = [([2; 3; 4; 5], [0; 1]); ([0; 1; 5], [2; 3]); ([0; 1; 3], [4; 5])]%nat /\
  yields (kfold_split three_folds (XArr 6) YNone (GArr (mkG SerTime [0; 1; 2; 3; 4; 5]))) = [([3; 4; 5], [0; 1]); ([0; 1; 5], [2; 3]); ([0; 1; 2; 3], [4; 5])]%nat.
Proof. repeat split; try (vm_compute; reflexivity); repeat constructor; cbn; intuition discriminate. Qed.

(** the tail of a longer table: no position is a label, and nothing is yielded *)
Theorem C119_tail : forall c n y s, series s -> 2 <= kf_folds c -> (forall k, In k (sg_lab s) -> Z.of_nat n <= k) ->
  yields (s_kfold_split c (XArr n) y s) = [] /\ (exists e, ended (s_kfold_split c (XArr n) y s) = Raised e) /\
  (forall u, basecv_split (XArr n) y (GArr (sg_pos s)) = Ok u -> validate_split_settings n (kf_folds c) (kf_embargo c) (kf_purge c) = Ok u -> length (sg_val s) = n -> ended (s_kfold_split c (XArr n) y s) = Raised KeyError).
Proof.
  intros c n y s Hs Hk Hl.
  assert (Q : exists e, s_kfold_split c (XArr n) y s = mkGen [] (Raised e) /\ (forall u, basecv_split (XArr n) y (GArr (sg_pos s)) = Ok u -> validate_split_settings n (kf_folds c) (kf_embargo c) (kf_purge c) = Ok u -> length (sg_val s) = n -> e = KeyError)).
  { unfold s_kfold_split. destruct (basecv_split (XArr n) y (GArr (sg_pos s))) as [u0|e0]; cbn [bind]; [|exists e0; split; [reflexivity|discriminate]]. cbn [x_rows].
    destruct (validate_split_settings n (kf_folds c) (kf_embargo c) (kf_purge c)) as [u1|e1] eqn:Ev; cbn [bind]; [|exists e1; split; [reflexivity|discriminate]].
    assert (Hn : kf_folds c <= Z.of_nat n) by (unfold validate_split_settings in Ev; destruct (Z.ltb_spec (Z.of_nat n) (kf_folds c)); [discriminate|lia]).
    rewrite seq_length. destruct (Nat.eqb_spec (length (sg_val s)) n) as [El|El]; [|exists AssertionError; split; [reflexivity|intros; contradiction]].
    destruct (array_split_bounds n (Z.to_nat (kf_folds c)) ltac:(lia)) as (bs & B1 & _ & B2 & B3 & B4). rewrite B1. cbn [bind].
    destruct bs as [|[a b] [|nxt bs]]; try (cbn [length] in B4; lia). cbn [s_modify_all s_modify snd]. destruct B3 as (-> & A1 & A2). apply adj_le in A2.
    assert (K : at_label s (Z.of_nat b) = Raise KeyError) by (apply (at_label_spec _ _ Hs); intros C; specialize (Hl _ C); lia). rewrite K. cbn [bind]. exists KeyError. split; reflexivity. }
  destruct Q as (e & -> & Q). cbn [yields ended]. split; [reflexivity|]. split; [exists e; reflexivity|]. intros u A B C. rewrite (Q u A B C). reflexivity.
Qed.
Print Assumptions C119_tail.
Example C119_tail_example : let s := mkSG true [10; 11; 12; 13; 14; 15] [0; 1; 2; 3; 4; 5] in series s /\ s_kfold_split three_folds (XArr 6) YNone s = mkGen [] (Raised KeyError).
Proof. split; [|vm_compute; reflexivity]. split; [reflexivity|repeat constructor; cbn; intuition discriminate]. Qed.

(** the walk forward splitter reads the label -1 before it yields anything *)
Theorem C119_walk_forward : forall w X y s, series s -> ~ In (-1) (sg_lab s) -> exists e, s_wf_start w X y s = Raise e /\
  (forall r, basecv_split X y (GArr (sg_pos s)) = Ok r -> sg_lab s = map Z.of_nat (seq 0 (length (sg_val s))) -> forall o, wf_start w (sg_pos s) = Ok o -> e = KeyError).
Proof.
  intros w X y s Hs Hl. assert (K : at_label s (-1) = Raise KeyError) by (apply (at_label_spec _ _ Hs); exact Hl).
  destruct (s_wf_start w X y s) as [r|e] eqn:E.
  - exfalso. unfold s_wf_start in E. repeat (apply bind_ok in E as (? & ? & E)). congruence.
  - exists e. split; [reflexivity|]. intros r Er Hd o Ho. unfold s_wf_start in E. rewrite Er in E. cbn [bind] in E. change 0 with (Z.of_nat 0) in E. unfold wf_start in Ho.
    repeat (rewrite ?at_label_default in E by exact Hd;
      match type of Ho with bind ?x _ = _ => destruct x as [?|?]; cbn [bind] in Ho, E; [|discriminate] end). rewrite K in E. cbn [bind] in E. congruence.
Qed.
Print Assumptions C119_walk_forward.
Example C119_wf_example : ~ In (-1) (sg_lab days6) /\ s_wf_start (mkWF (DTd 0) (DTd 2) (DTd 1) Expanding (Some 1)) (XArr 6) YNone (mkSG true [0; 1; 2; 3; 4; 5] [0; 1; 2; 3; 4; 5]) = Raise KeyError.
Proof. split; [cbn; intuition discriminate|vm_compute; reflexivity]. Qed.
