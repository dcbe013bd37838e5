(** Property theorems for the shared splitter helpers: C07, C08, C16. *)
From Coq Require Import List ZArith Bool Arith Lia Sorted ZifyBool.
From Verif Require Import Base Split_Model Split_Proofs Kfold_Proofs Kfold_Props.
Import ListNotations.
Open Scope Z_scope.

(** * Specification vocabulary *)

(** Group value of sample i. *)
Definition gv (g : groups) (i : nat) : Z := nth i (g_val g) 0.

(** The number inside a period. *)
Definition magnitude (d : delta) : Z := match d with DInt a => a | DTd a => a end.

(** integer period with an integer array, or Timedelta with timestamps *)
Definition compatible (g : groups) (d : delta) : Prop :=
  match d, g_kind g with DInt _, ArrInt => True | DTd _, (DtiTime | SerTime) => True | _, _ => False end.

Definition ascending (l : list Z) : Prop :=
  forall i j, (i <= j < length l)%nat -> nth i l 0 <= nth j l 0.

(** sample i lies after all test groups but within d of the last one *)
Definition in_purge_zone (g : groups) (test : list nat) (d : Z) (i : nat) : Prop :=
  (forall j, In j test -> gv g j < gv g i) /\ (exists j, In j test /\ gv g i <= gv g j + d).

(** sample i lies before all test groups but within d of the first one *)
Definition in_embargo_zone (g : groups) (test : list nat) (d : Z) (i : nat) : Prop :=
  (forall j, In j test -> gv g i < gv g j) /\ (exists j, In j test /\ gv g j - d <= gv g i).

Lemma ascending_nondecr : forall l, ascending l <-> nondecr l.
Proof. unfold ascending, nondecr; split; intros H i j; intros; apply H; lia. Qed.

(** * C07 *)
Theorem C07_purge_exact : forall train test n g d,
  compatible g d -> 0 <= magnitude d -> ascending (g_val g) -> length (g_val g) = n ->
  test <> [] -> (forall j, In j test -> (j < n)%nat) -> (forall i, In i train -> (i < n)%nat) ->
  (exists r, purge train test (seq 0 n) g d = Ok r /\ r <> [] /\ StronglySorted lt r /\
     forall i, In i r <-> In i train /\ ~ in_purge_zone g test (magnitude d) i) \/
  (purge train test (seq 0 n) g d = Raise ValueError /\
     forall i, In i train -> in_purge_zone g test (magnitude d) i).
Proof.
  intros train test n g d Hc Hd Hs Hn Hne Hin Htr.
  apply ascending_nondecr in Hs.
  assert (Hv : validate_purge_embargo_inputs g d = Ok tt).
  { apply sortedb_spec in Hs. unfold validate_purge_embargo_inputs, compatible in *.
    destruct d as [a|a]; destruct (g_kind g); try tauto; simpl in Hd;
      (destruct (Z.ltb_spec a 0); [lia|]; rewrite Hs; reflexivity). }
  assert (Hm : exists m, sel_max g test = Ok (Some m)).
  { unfold sel_max. rewrite mapM_getitem_in by (rewrite Hn; auto). simpl.
    destruct test; simpl; [congruence|eauto]. }
  destruct Hm as [m Hm]. assert (Hms := sel_max_spec _ _ _ Hm). simpl in Hms. destruct Hms as [[jx [J1 J2]] J3].
  assert (Hp : plus_delta_o (g_kind g) (Some m) d = Ok (Some (m + magnitude d))).
  { unfold plus_delta_o, plus_delta, compatible in *. destruct d as [a|a]; destruct (g_kind g); try tauto; reflexivity. }
  destruct (purge train test (seq 0 n) g d) as [r|err] eqn:E.
  - left. exists r; split; auto. apply purge_ok in E as [_ [_ [_ [E1 [E2 [E3 _]]]]]].
    split; auto. split; auto. destruct (E3 Hne) as [mx [[j1 [K1 K2]] [K3 K4]]].
    assert (mx = m). { specialize (K3 jx J1). specialize (J3 j1 K1). lia. } subst mx.
    intros i. rewrite K4. unfold in_purge_zone. change (gat g) with (gv g) in *. change (dval d) with (magnitude d).
    split; intros [A B]; split; auto; intros C; apply B.
    + destruct C as [C1 [j [C2 C3]]]. specialize (C1 jx J1). specialize (J3 j C2). split; [auto|]. lia.
    + destruct C as [C0 C1]. split; [intros j Hj; specialize (J3 j Hj); lia|]. exists jx; split; auto. lia.
  - right. unfold purge in E. rewrite Hv, Hm in E. cbn [bind] in E. rewrite Hp in E. cbn [bind] in E.
    destruct (mask_select _ _ _) as [pg|] eqn:Em.
    2:{ assert (Hx := proj2 (mask_select_seq n g (fun v => cmp_o Z.leb v (Some (m + magnitude d)) && cmp_o Z.gtb v (Some m)) _)
          (conj Hn eq_refl)). congruence. }
    apply mask_select_seq in Em as [_ ->]. cbn [bind] in E. cbv zeta in E.
    destruct (setdiff1d train _) eqn:Es; [|discriminate]. injection E as <-. split; auto.
    intros i Hi. assert (Hno : ~ In i (@nil nat)) by (simpl; tauto). rewrite <- Es, In_setdiff1d, filter_In, in_seq in Hno.
    change (gat g) with (gv g) in *. unfold cmp_o in Hno.
    assert (Hz : m < gv g i <= m + magnitude d).
    { destruct (Z_lt_le_dec m (gv g i)); destruct (Z_le_gt_dec (gv g i) (m + magnitude d)); try lia;
      (exfalso; apply Hno; split; auto; intros [_ Hb]; lia). }
    split; [intros j Hj; specialize (J3 j Hj); lia|]. exists jx; split; auto; lia.
Qed.
Print Assumptions C07_purge_exact.

Theorem C07_embargo_exact : forall train test n g d,
  compatible g d -> 0 <= magnitude d -> ascending (g_val g) -> length (g_val g) = n ->
  test <> [] -> (forall j, In j test -> (j < n)%nat) -> (forall i, In i train -> (i < n)%nat) ->
  (exists r, embargo train test (seq 0 n) g d = Ok r /\ r <> [] /\ StronglySorted lt r /\
     forall i, In i r <-> In i train /\ ~ in_embargo_zone g test (magnitude d) i) \/
  (embargo train test (seq 0 n) g d = Raise ValueError /\
     forall i, In i train -> in_embargo_zone g test (magnitude d) i).
Proof.
  intros train test n g d Hc Hd Hs Hn Hne Hin Htr.
  apply ascending_nondecr in Hs.
  assert (Hv : validate_purge_embargo_inputs g d = Ok tt).
  { apply sortedb_spec in Hs. unfold validate_purge_embargo_inputs, compatible in *.
    destruct d as [a|a]; destruct (g_kind g); try tauto; simpl in Hd;
      (destruct (Z.ltb_spec a 0); [lia|]; rewrite Hs; reflexivity). }
  assert (Hm : exists m, sel_min g test = Ok (Some m)).
  { unfold sel_min. rewrite mapM_getitem_in by (rewrite Hn; auto). simpl.
    destruct test; simpl; [congruence|eauto]. }
  destruct Hm as [m Hm]. assert (Hms := sel_min_spec _ _ _ Hm). simpl in Hms. destruct Hms as [[jx [J1 J2]] J3].
  assert (Hp : plus_delta_o (g_kind g) (Some m) (neg_delta d) = Ok (Some (m - magnitude d))).
  { unfold plus_delta_o, plus_delta, compatible in *. destruct d as [a|a]; destruct (g_kind g); try tauto; simpl;
    do 2 f_equal; lia. }
  destruct (embargo train test (seq 0 n) g d) as [r|err] eqn:E.
  - left. exists r; split; auto. apply embargo_ok in E as [_ [_ [_ [E1 [E2 [E3 _]]]]]].
    split; auto. split; auto. destruct (E3 Hne) as [mx [[j1 [K1 K2]] [K3 K4]]].
    assert (mx = m). { specialize (K3 jx J1). specialize (J3 j1 K1). lia. } subst mx.
    intros i. rewrite K4. unfold in_embargo_zone. change (gat g) with (gv g) in *. change (dval d) with (magnitude d).
    split; intros [A B]; split; auto; intros C; apply B.
    + destruct C as [C1 [j [C2 C3]]]. specialize (C1 jx J1). specialize (J3 j C2). split; [auto|]. lia.
    + destruct C as [C0 C1]. split; [intros j Hj; specialize (J3 j Hj); lia|]. exists jx; split; auto. lia.
  - right. unfold embargo in E. rewrite Hv, Hm in E. cbn [bind] in E. rewrite Hp in E. cbn [bind] in E.
    destruct (mask_select _ _ _) as [pg|] eqn:Em.
    2:{ assert (Hx := proj2 (mask_select_seq n g (fun v => cmp_o Z.geb v (Some (m - magnitude d)) && cmp_o Z.ltb v (Some m)) _)
          (conj Hn eq_refl)). congruence. }
    apply mask_select_seq in Em as [_ ->]. cbn [bind] in E. cbv zeta in E.
    destruct (setdiff1d train _) eqn:Es; [|discriminate]. injection E as <-. split; auto.
    intros i Hi. assert (Hno : ~ In i (@nil nat)) by (simpl; tauto). rewrite <- Es, In_setdiff1d, filter_In, in_seq in Hno.
    change (gat g) with (gv g) in *. unfold cmp_o in Hno.
    assert (Hz : m - magnitude d <= gv g i < m).
    { destruct (Z_lt_le_dec (gv g i) m); destruct (Z_le_gt_dec (m - magnitude d) (gv g i)); try lia;
      (exfalso; apply Hno; split; auto; intros [_ Hb]; lia). }
    split; [intros j Hj; specialize (J3 j Hj); lia|]. exists jx; split; auto; lia.
Qed.
Print Assumptions C07_embargo_exact.

Example C07_example :
  let g := mkG ArrInt [0;1;2;2;3;4;6] in
  compatible g (DInt 1) /\ ascending (g_val g) /\
  purge [0;1;4;5;6]%nat [2;3]%nat (seq 0 7) g (DInt 1) = Ok [0;1;5;6]%nat /\
  embargo [0;1;4;5;6]%nat [2;3]%nat (seq 0 7) g (DInt 1) = Ok [0;4;5;6]%nat.
Proof.
  cbv zeta. split; [exact I|]. split; [apply ascending_nondecr, sortedb_spec; reflexivity|].
  vm_compute. auto.
Qed.

(** Bad inputs are rejected: negative period or unsorted groups with ValueError, incompatible types with TypeError. *)
Theorem C07_bad_input_rejected : forall train test indices g d,
  (magnitude d < 0 \/ ~ ascending (g_val g) ->
     compatible g d ->
     purge train test indices g d = Raise ValueError /\ embargo train test indices g d = Raise ValueError) /\
  (match d, g_kind g with DInt _, ArrInt => False | DInt _, _ => True | DTd _, ArrInt => True | DTd _, _ => False end ->
     purge train test indices g d = Raise TypeError /\ embargo train test indices g d = Raise TypeError).
Proof.
  intros train test indices g d. split.
  - intros Hor Hc.
    assert (Hv : validate_purge_embargo_inputs g d = Raise ValueError).
    { unfold validate_purge_embargo_inputs, compatible in *. rewrite ascending_nondecr, <- sortedb_spec in Hor.
      destruct d as [a|a]; destruct (g_kind g); try tauto; simpl in Hor;
      (destruct (Z.ltb_spec a 0); [auto|]; destruct (sortedb (g_val g)); [lia|auto]). }
    unfold purge, embargo. rewrite Hv. auto.
  - intros Hc.
    assert (Hv : validate_purge_embargo_inputs g d = Raise TypeError).
    { unfold validate_purge_embargo_inputs. destruct d; destruct (g_kind g); tauto. }
    unfold purge, embargo. rewrite Hv. auto.
Qed.
Print Assumptions C07_bad_input_rejected.

(** * C08 *)
Definition valid_period (p : parg) : Prop := exists d, p = PDelta d /\ 0 <= magnitude d.

Theorem C08_kfold_constructor : forall nf e p look freq,
  (exists c, kfold_init nf e p look freq = Ok c) <->
  (exists k, nf = IInt k /\ 2 <= k) /\ valid_period e /\ valid_period p.
Proof.
  intros. split.
  - intros [c H]. apply kfold_init_ok in H as [H1 [H2 [_ [_ [H3 [H4 [H5 H6]]]]]]].
    split; [eauto|]. split; [exists (kf_embargo c)|exists (kf_purge c)]; auto.
  - intros [[k [-> Hk]] [[de [-> He]] [dp [-> Hp]]]].
    unfold kfold_init, basecv_init.
    destruct de as [a|a]; destruct dp as [b|b]; simpl in *;
      (destruct (Z.ltb_spec a 0); [lia|]); (destruct (Z.ltb_spec b 0); [lia|]);
      destruct (Z.ltb_spec k 2); try lia; simpl; eauto.
Qed.
Print Assumptions C08_kfold_constructor.

Theorem C08_kfold_constructor_errors : forall nf e p look freq,
  (e = POther \/ p = POther -> kfold_init nf e p look freq = Raise TypeError) /\
  (forall de dp, e = PDelta de -> p = PDelta dp ->
     ~ ((exists k, nf = IInt k /\ 2 <= k) /\ valid_period e /\ valid_period p) ->
     kfold_init nf e p look freq = Raise ValueError).
Proof.
  intros. split.
  - intros [->| ->]; [reflexivity|]. destruct e; reflexivity.
  - intros de dp -> -> Hn. unfold kfold_init, basecv_init.
    destruct de as [a|a]; destruct dp as [b|b]; simpl;
      (destruct (Z.ltb_spec a 0); [destruct (b <? 0); reflexivity|]);
      (destruct (Z.ltb_spec b 0); [reflexivity|]); simpl;
      (destruct nf as [k|]; [|reflexivity]);
      (destruct (Z.ltb_spec k 2); [reflexivity|]); exfalso; apply Hn;
      (split; [eauto|split; eexists; split; eauto; simpl; lia]).
Qed.
Print Assumptions C08_kfold_constructor_errors.

Theorem C08_walk_forward_constructor : forall e p tr te st freq,
  (exists w, wf_init e p tr te st freq = Ok w) <-> valid_period e /\ valid_period p /\ st <> SOther.
Proof.
  intros. unfold wf_init. split.
  - intros [w H]. apply bind_ok in H as [[de dp] [H1 H]].
    split; [|split; [|destruct st; congruence]].
    + unfold basecv_init in H1. destruct e as [de'|]; [|discriminate]. destruct p as [dp'|]; [|discriminate].
      destruct de' as [a|a]; destruct dp' as [b|b]; simpl in H1;
      destruct (Z.ltb_spec a 0); try discriminate; (try (destruct (b <? 0); discriminate));
      eexists; split; eauto.
    + unfold basecv_init in H1. destruct e as [de'|]; [|discriminate]. destruct p as [dp'|]; [|discriminate].
      destruct de' as [a|a]; destruct dp' as [b|b]; simpl in H1;
      destruct (Z.ltb_spec b 0); try discriminate; (try (destruct (a <? 0); discriminate));
      eexists; split; eauto.
  - intros [[de [-> He]] [[dp [-> Hp]] Hst]]. unfold basecv_init.
    destruct de as [a|a]; destruct dp as [b|b]; simpl in *;
      (destruct (Z.ltb_spec a 0); [lia|]); (destruct (Z.ltb_spec b 0); [lia|]);
      simpl; destruct st; try congruence; destruct freq; eauto.
Qed.
Print Assumptions C08_walk_forward_constructor.

Example C08_example : valid_period (PDelta (DInt 3)) /\ valid_period (PDelta (DTd 86400000000000)) /\
  (exists c, kfold_init (IInt 5) (PDelta (DInt 3)) (PDelta (DInt 0)) true None = Ok c).
Proof.
  split; [|split].
  - eexists; split; [reflexivity|]; simpl; lia.
  - eexists; split; [reflexivity|]; simpl; lia.
  - eexists; reflexivity.
Qed.

(** * C16 *)
Theorem C16_bad_arguments_yield_nothing : forall X y ga c w fuel o,
  (X = XBad \/ y = YBad \/ ga = GBad ->
     kfold_split c X y ga = mkGen [] (Raised TypeError) /\
     wf_split w fuel X y ga o = (mkGen [] (Raised TypeError), o)) /\
  (forall n g, X = XArr n -> y <> YBad -> ga = GArr g -> ~ ascending (g_val g) ->
     kfold_split c X y ga = mkGen [] (Raised ValueError) /\
     wf_split w fuel X y ga o = (mkGen [] (Raised ValueError), o)).
Proof.
  intros X y ga c w fuel o. split.
  - intros H.
    assert (E : basecv_split X y ga = Raise TypeError).
    { unfold basecv_split. destruct X; auto. destruct y; auto; destruct ga; auto; destruct H as [H|[H|H]]; discriminate. }
    unfold kfold_split, kfold_prepare, wf_split. rewrite E. auto.
  - intros n g -> Hy -> Hs. rewrite ascending_nondecr, <- sortedb_spec in Hs.
    assert (E : basecv_split (XArr n) y (GArr g) = Raise ValueError).
    { simpl. destruct y; try congruence; destruct (sortedb (g_val g)); congruence. }
    unfold kfold_split, kfold_prepare, wf_split. rewrite E. auto.
Qed.
Print Assumptions C16_bad_arguments_yield_nothing.

Example C16_example : ~ ascending [3; 1; 2].
Proof. intros H. specialize (H 0%nat 1%nat). simpl in H. lia. Qed.
