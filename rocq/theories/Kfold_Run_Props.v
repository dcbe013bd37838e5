(** Complete description of a TimeAwareKFold run: which samples each fold tests (C86) and how the run ends (C87),
    and groups given as a pandas Series (C88). *)
From Coq Require Import List ZArith Bool Arith Lia Sorted ZifyBool.
From Verif Require Import Base Split_Model Split_Proofs Kfold_Spec Kfold_Proofs Kfold_Props Split_Props Kfold_Run_Proofs.
Import ListNotations.
Open Scope Z_scope.

(** * C86 *)

(** The folds that are tested: all of them, or all but the first when look_forward. *)
Definition offset (look : bool) : nat := if look then 1%nat else 0%nat.

Lemma Forall2_nth : forall A B (R : A -> B -> Prop) l1 l2, Forall2 R l1 l2 ->
  forall j b, nth_error l2 j = Some b -> exists a, nth_error l1 j = Some a /\ R a b.
Proof.
  induction 1; intros j b Hj; destruct j; simpl in *; try discriminate.
  - injection Hj as <-. eauto.
  - eauto.
Qed.

Lemma Forall2_len : forall A B (R : A -> B -> Prop) l1 l2, Forall2 R l1 l2 -> length l1 = length l2.
Proof. induction 1; simpl; congruence. Qed.

Lemma adj_fst_pos : forall rest p n, adj p rest n -> forall c, In c (map fst rest) -> (p <= c < n)%nat.
Proof.
  induction rest as [|[a b] rest IH]; cbn [adj map In fst]; intros p n H c Hc; [tauto|].
  destruct H as [-> [H1 H2]]. assert (Hle := adj_le _ _ _ H2).
  destruct Hc as [<-|Hc]; [lia|]. specialize (IH _ _ H2 c Hc). lia.
Qed.

(** The test folds computed before the loop. *)
Lemma modify_nominal : forall g n k, nondecr (g_val g) -> length (g_val g) = n -> (1 <= k <= n)%nat ->
  let stuck := exists j, (0 < j < k)%nat /\ blocking g n (fold_start n k j) in
  (stuck -> modify_fold_bounds_all g (nominal_bounds n k) = Raise (block_exn g)) /\
  (~ stuck -> exists bs, modify_fold_bounds_all g (nominal_bounds n k) = Ok bs /\ length bs = k /\
     forall j t, nth_error (map bound_range bs) j = Some t -> forall i, In i t <-> in_fold n k (gat g) j i).
Proof.
  intros g n k Hs Hn Hk. cbv zeta.
  destruct (array_split_bounds n k Hk) as [bs0 [_ [B2 [_ [B3 B4]]]]].
  rewrite blocks_nominal in B2 by auto.
  rewrite <- B2. destruct bs0 as [|[a b] rest] eqn:Eb; [simpl in B4; lia|].
  assert (Ha : a = 0%nat) by (simpl in B3; tauto).
  assert (B3' := B3). cbn [adj] in B3'. destruct B3' as [_ [Hab Hrest]]. assert (Hle := adj_le _ _ _ Hrest).
  assert (HL : lands g 0 0) by (split; [lia|]; split; [left; auto|intros; lia]).
  subst a.
  destruct (modify_run g n Hs Hn rest 0%nat 0%nat b Hrest ltac:(lia) HL) as [M1 M2].
  assert (Hfst : forall c, In c (map fst rest) <-> exists j, (0 < j < k)%nat /\ c = fold_start n k j).
  { assert (Er : map fst rest = map (fold_start n k) (seq 1 (k - 1))).
    { assert (Et : map fst rest = tl (map fst ((0%nat, b) :: rest))) by reflexivity.
      rewrite Et, B2. unfold nominal_bounds. rewrite map_map. cbn [fst].
      destruct k as [|k]; [lia|]. cbn [seq map tl]. replace (S k - 1)%nat with k by lia. reflexivity. }
    intros c. rewrite Er, in_map_iff. split.
    - intros [j [<- Hj]]. apply in_seq in Hj. exists j. split; [lia|auto].
    - intros [j [Hj ->]]. exists j. split; auto. apply in_seq. lia. }
  split.
  - intros [j [Hj Hb]]. apply M1. exists (fold_start n k j). split; [apply Hfst; eauto|auto].
  - intros H. destruct M2 as [bs [M2 M3]].
    { intros [c [Hc Hb]]. apply Hfst in Hc as [j [Hj ->]]. apply H. eauto. }
    exists bs. split; [exact M2|]. split; [apply Forall2_len in M3; simpl in *; lia|].
    intros j t Ht i. rewrite nth_error_map in Ht. destruct (nth_error bs j) as [[a' b']|] eqn:Ej; [|discriminate].
    injection Ht as <-. destruct (Forall2_nth _ _ _ _ _ M3 j _ Ej) as [[a0 b0] [E0 [L1 L2]]].
    cbn [fst snd] in L1, L2. rewrite B2 in E0. unfold nominal_bounds in E0.
    rewrite nth_error_map, nth_error_seq' in E0. destruct (Nat.ltb_spec j k); [|discriminate].
    cbn [option_map] in E0. injection E0 as <- <-.
    assert (Hmono := fold_start_lt n k j ltac:(lia)). cbn [Nat.add] in *.
    replace (S (fold_start n k (S j) - 1)) with (fold_start n k (S j)) in L2 by lia.
    assert (Hend : (S b' <= n)%nat).
    { assert (Hsn : (fold_start n k (S j) <= n)%nat).
      { destruct (Nat.eq_dec (S j) k) as [->|]; [rewrite fold_start_last by lia; lia|].
        assert (Xl := fold_start_last n k ltac:(lia)).
        assert (X := fold_start_mono n k (S j) k ltac:(lia) ltac:(lia)). lia. }
      destruct L2 as [_ [_ L2]]. destruct (Nat.le_gt_cases (S b') n); auto.
      exfalso. apply (L2 n); [lia|]. right; left; lia. }
    unfold bound_range; cbn [fst snd]. rewrite in_seq. unfold in_fold. split.
    + intros Hi. assert (Hin : (i < n)%nat) by lia. split; auto.
      destruct (first_exists (gat g) i) as [s [F1 [F2 F3]]]. exists s. split; [split; auto|].
      assert (X1 := lands_spec g n _ _ i s Hs Hn L1 Hin F1 F2 F3).
      assert (X2 := lands_spec g n _ _ i s Hs Hn L2 Hin F1 F2 F3). lia.
    + intros [Hin [s [[F1 [F2 F3]] F4]]].
      assert (X1 := lands_spec g n _ _ i s Hs Hn L1 Hin F1 F2 F3).
      assert (X2 := lands_spec g n _ _ i s Hs Hn L2 Hin F1 F2 F3). lia.
Qed.

Lemma array_split_nominal : forall n k, (1 <= k <= n)%nat ->
  mapM fold_bound (array_split (seq 0 n) k) = Ok (nominal_bounds n k).
Proof.
  intros n k H. destruct (array_split_bounds n k H) as [bs [B1 [B2 _]]].
  rewrite B1, B2, blocks_nominal by auto. reflexivity.
Qed.

Lemma kfold_loop_nth : forall ix g look e p tests m tr te,
  nth_error (yields (kfold_loop ix g look e p tests)) m = Some (tr, te) -> nth_error tests m = Some te.
Proof.
  induction tests as [|t ts IH]; cbn [kfold_loop]; intros m tr te H.
  - destruct m; discriminate.
  - destruct (kfold_train ix t g look e p); cbn [yields] in H; [|destruct m; discriminate].
    destruct m; cbn [nth_error] in *; [congruence|eauto].
Qed.

Lemma in_fold_ext : forall n k G G' j i, (forall i, G i = G' i) -> in_fold n k G j i <-> in_fold n k G' j i.
Proof.
  intros n k G G' j i H. unfold in_fold, first_of_group. split; intros [A [s [[B [C D]] E]]]; (split; [auto|exists s]; split; [|auto]);
    split; auto; split.
  - rewrite <- !H; auto.
  - intros m Hm. rewrite <- !H; auto.
  - rewrite !H; auto.
  - intros m Hm. rewrite !H; auto.
Qed.

(** Every yielded test set, in order: fold j tests exactly the samples whose group starts in nominal fold j.  This holds
    for every yielded pair, whether or not the run completes. *)
Theorem C86_fold_assignment : forall k e p look freq c n y ga m tr te,
  kfold_init (IInt (Z.of_nat k)) e p look freq = Ok c ->
  nth_error (yields (kfold_split c (XArr n) y ga)) m = Some (tr, te) ->
  StronglySorted lt te /\
  forall i, In i te <-> in_fold n k (group_of n ga) (m + offset look) i.
Proof.
  intros k e p look freq c n y ga m tr te Hi Hm.
  apply kfold_init_ok in Hi as [Hk [Hnf [Hlk _]]]. injection Hnf as Hnf.
  unfold kfold_split in Hm. destruct (kfold_prepare c (XArr n) y ga) as [[[[[ix g] e'] p'] tests]|] eqn:Ep.
  2:{ destruct m; discriminate. }
  apply kfold_prepare_ok in Ep as [bs [-> [_ [Hn [Hs [Hkn [Hg [_ [Hlen [_ [Ht [_ [bs0 [B1 Hmod]]]]]]]]]]]]]]; auto.
  cbn [x_rows] in *. rewrite <- Hnf, Nat2Z.id in *.
  rewrite array_split_nominal in B1 by lia. injection B1 as <-.
  destruct (modify_nominal g n k Hs Hn ltac:(lia)) as [N1 N2].
  assert (Hns : ~ exists j, (0 < j < k)%nat /\ blocking g n (fold_start n k j)).
  { intros Hst. specialize (N1 Hst). congruence. }
  destruct (N2 Hns) as [bs1 [N3 [N4 N5]]]. rewrite Hmod in N3. injection N3 as <-.
  apply kfold_loop_nth in Hm. rewrite Hlk in Ht.
  assert (Hj : nth_error (map bound_range bs) (m + offset look) = Some te).
  { rewrite Ht in Hm. destruct look; cbn [offset].
    - rewrite Nat.add_1_r. destruct (map bound_range bs); cbn [tl] in Hm; [destruct m; discriminate|exact Hm].
    - rewrite Nat.add_0_r. exact Hm. }
  split.
  - apply nth_error_In, in_map_iff in Hj as [[a b] [<- _]]. apply seq_sorted.
  - intros i. rewrite (N5 _ _ Hj i). apply in_fold_ext. intros x. symmetry. apply group_of_gat; auto.
Qed.
Print Assumptions C86_fold_assignment.

(** 10 samples, 3 folds: nominal folds start at 0, 4, 7; the group 2 starts in the first and reaches into the second. *)
Example C86_example :
  fold_start 10 3 1 = 4%nat /\ fold_start 10 3 2 = 7%nat /\
  exists c, kfold_init (IInt 3) (PDelta (DInt 0)) (PDelta (DInt 0)) false None = Ok c /\
  map snd (yields (kfold_split c (XArr 10) YNone (GArr (mkG ArrInt [0;1;2;2;2;3;3;3;4;5]))))
  = [[0;1;2;3;4]; [5;6;7]; [8;9]]%nat.
Proof. split; [reflexivity|]. split; [reflexivity|]. eexists. split; reflexivity. Qed.

(** * C87 *)

(** Groups and freq that go together: none, a numpy integer array without freq, or timestamps with freq. *)
Definition usable (n : nat) (ga : garg) (freq : option Z) : Prop :=
  match ga with
  | GNone => True
  | GBad => False
  | GArr g => ascending (g_val g) /\ length (g_val g) = n /\
      match g_kind g, freq with
      | ArrInt, None => True
      | (DtiTime | SerTime), Some u => 0 <= u
      | _, _ => False
      end
  end.

Definition series_groups (ga : garg) : Prop := match ga with GArr g => is_series (g_kind g) = true | _ => False end.

Lemma kfold_loop_run : forall ix g look e p tests,
  let r := kfold_loop ix g look e p tests in
  (length (yields r) <= length tests)%nat /\
  (forall j t, (j < length (yields r))%nat -> nth_error tests j = Some t ->
     exists tr, kfold_train ix t g look e p = Ok tr) /\
  (ended r = Done /\ length (yields r) = length tests \/
   exists t err, nth_error tests (length (yields r)) = Some t /\ kfold_train ix t g look e p = Raise err /\
     ended r = Raised err).
Proof.
  intros ix g look e p tests. cbv zeta. induction tests as [|t ts IH]; cbn [kfold_loop].
  - cbn [yields ended length]. split; [lia|]. split; [intros; lia|]. left; auto.
  - destruct (kfold_train ix t g look e p) as [tr|err] eqn:E; cbn [yields ended length].
    + destruct IH as [I1 [I2 I3]]. split; [lia|]. split.
      * intros j t' Hj Ht'. destruct j; cbn [nth_error] in Ht'; [injection Ht' as <-; eauto|].
        apply (I2 j); auto. lia.
      * destruct I3 as [[I3 I4]|[t' [err [I3 [I4 I5]]]]]; [left; split; auto; lia|].
        right. exists t', err. cbn [nth_error]. auto.
    + split; [lia|]. split; [intros; lia|]. right. exists t, err. auto.
Qed.

(** The settings check kfoldpe.py 13-41 in one line. *)
Lemma validate_settings_iff : forall n k e p, 2 <= k -> 0 <= e -> 0 <= p ->
  (k <= Z.of_nat n /\ e + p <= Z.of_nat n - Z.of_nat n / k -> validate_split_settings n k (DInt e) (DInt p) = Ok tt) /\
  (~ (k <= Z.of_nat n /\ e + p <= Z.of_nat n - Z.of_nat n / k) ->
     validate_split_settings n k (DInt e) (DInt p) = Raise ValueError).
Proof.
  intros n k e p Hk He Hp. unfold validate_split_settings. split.
  - intros [H1 H2]. assert (1 <= Z.of_nat n / k) by (apply Z.div_le_lower_bound; lia).
    destruct (Z.ltb_spec (Z.of_nat n) k); [lia|].
    destruct (p + e >=? Z.of_nat n) eqn:E1; [lia|]. cbv zeta.
    destruct ((p >? _) || _ || _) eqn:E2; [lia|reflexivity].
  - intros H. destruct (Z.ltb_spec (Z.of_nat n) k); [reflexivity|].
    destruct (p + e >=? Z.of_nat n) eqn:E1; [reflexivity|]. cbv zeta.
    destruct ((p >? _) || _ || _) eqn:E2; [reflexivity|lia].
Qed.

(** Settings that cannot work are refused before anything is yielded. *)
Theorem C87_settings_refused : forall k e p look freq c n y ga,
  kfold_init (IInt k) (PDelta (DInt e)) (PDelta (DInt p)) look freq = Ok c ->
  y <> YBad -> usable n ga freq ->
  ~ (k <= Z.of_nat n /\ e + p <= Z.of_nat n - Z.of_nat n / k) ->
  kfold_split c (XArr n) y ga = mkGen [] (Raised ValueError).
Proof.
  intros k e p look freq c n y ga Hi Hy Hu Hbad.
  apply kfold_init_ok in Hi as [Hk [Hnf [Hlk [Hfr [He [Hp [He0 Hp0]]]]]]].
  injection Hnf as ->. injection He as He. injection Hp as Hp. rewrite <- He, <- Hp in *. simpl in He0, Hp0.
  unfold kfold_split, kfold_prepare.
  assert (Hb : basecv_split (XArr n) y ga = Ok tt).
  { unfold basecv_split. destruct y; try congruence; destruct ga as [|g|]; simpl in Hu; try tauto;
    destruct Hu as [Hu _]; apply ascending_nondecr, sortedb_spec in Hu; rewrite Hu; reflexivity. }
  rewrite Hb. cbn [bind x_rows]. rewrite <- He, <- Hp.
  destruct (validate_settings_iff n (kf_folds c) e p Hk He0 Hp0) as [_ V]. rewrite V by auto. reflexivity.
Qed.
Print Assumptions C87_settings_refused.

Example C87_settings_example : exists c,
  kfold_init (IInt 4) (PDelta (DInt 6)) (PDelta (DInt 4)) false None = Ok c /\ usable 11 GNone None /\
  ~ (4 <= Z.of_nat 11 /\ 6 + 4 <= Z.of_nat 11 - Z.of_nat 11 / 4).
Proof. eexists; split; [reflexivity|]. split; [exact I|]. vm_compute. intros [_ H]. congruence. Qed.

(** Fold j can be served: some sample may be used for training and, unless the groups are timestamps and the future may
    be used, the fold tests at least one sample. *)
Definition servable (n k : nat) (ga : garg) (look : bool) (e p : Z) (j : nat) : Prop :=
  (exists i, trainable n k (group_of n ga) look e p j i) /\
  (numpy_groups ga \/ look = true -> exists i, in_fold n k (group_of n ga) j i).

(** With settings that pass the check, the run
    - raises IndexError (KeyError for a Series) before yielding anything when the last group (for a Series: any group)
      crosses a nominal fold boundary;
    - otherwise serves the folds in order and completes exactly if all can be served; at the first fold that cannot it
      raises IndexError if look_forward and the fold is empty, and ValueError otherwise. *)
Theorem C87_outcome : forall k e p look freq c n y ga,
  kfold_init (IInt (Z.of_nat k)) (PDelta (DInt e)) (PDelta (DInt p)) look freq = Ok c ->
  y <> YBad -> usable n ga freq ->
  (k <= n)%nat -> e + p <= Z.of_nat n - Z.of_nat (n / k) ->
  let r := kfold_split c (XArr n) y ga in
  let G := group_of n ga in
  let fold_ok := servable n k ga look (in_units freq ga e) (in_units freq ga p) in
  (~ series_groups ga -> group_crosses n k G (G (n - 1)%nat) -> r = mkGen [] (Raised IndexError)) /\
  (series_groups ga -> (exists v, group_crosses n k G v) -> r = mkGen [] (Raised KeyError)) /\
  (~ group_crosses n k G (G (n - 1)%nat) -> (series_groups ga -> ~ exists v, group_crosses n k G v) ->
     let m := (length (yields r) + offset look)%nat in
     (m <= k)%nat /\
     (forall j, (offset look <= j < m)%nat -> fold_ok j) /\
     (ended r = Done <-> m = k) /\
     ((m < k)%nat -> ~ fold_ok m /\
        ((look = true /\ ~ exists i, in_fold n k G m i) -> ended r = Raised IndexError) /\
        (~ (look = true /\ ~ exists i, in_fold n k G m i) -> ended r = Raised ValueError))).
Proof.
  intros k e p look freq c n y ga Hi Hy Hu Hkn Hset r G fold_ok.
  apply kfold_init_ok in Hi as [Hk [Hnf [Hlk [Hfr [He [Hp [He0 Hp0]]]]]]].
  injection Hnf as Hnf. injection He as He. injection Hp as Hp. rewrite <- He, <- Hp in *. simpl in He0, Hp0.
  assert (Hk2 : (2 <= k)%nat) by lia.
  set (g := match ga with GArr g => g | _ => arange_groups n end).
  assert (HG : forall i, G i = gat g i) by (intros i; apply group_of_gat; reflexivity).
  assert (Hs : nondecr (g_val g)).
  { unfold g. destruct ga as [|gr|]; simpl in Hu; try tauto; [apply arange_nondecr|apply ascending_nondecr; tauto]. }
  assert (Hn : length (g_val g) = n).
  { unfold g. destruct ga as [|gr|]; simpl in Hu; try tauto. apply arange_length. }
  assert (Hb : basecv_split (XArr n) y ga = Ok tt).
  { unfold basecv_split. destruct y; try congruence; destruct ga as [|gr|]; simpl in Hu; try tauto;
    destruct Hu as [Hu _]; apply ascending_nondecr, sortedb_spec in Hu; rewrite Hu; reflexivity. }
  set (ep := match ga, kf_freq c with
            | GArr _, Some u => (to_timedelta (kf_embargo c) u, to_timedelta (kf_purge c) u)
            | _, _ => (kf_embargo c, kf_purge c) end).
  assert (Hr : r = match modify_fold_bounds_all g (nominal_bounds n k) with
                   | Raise err => mkGen [] (Raised err)
                   | Ok bs => kfold_loop (seq 0 n) g look (fst ep) (snd ep)
                                (if look then tl (map bound_range bs) else map bound_range bs)
                   end).
  { unfold r, kfold_split, kfold_prepare. rewrite Hb. cbn [bind x_rows].
    rewrite <- Hnf, <- He, <- Hp.
    destruct (validate_settings_iff n (Z.of_nat k) e p ltac:(lia) He0 Hp0) as [V _].
    rewrite V by (rewrite <- Nat2Z.inj_div; lia). cbn [bind]. cbv zeta. fold g.
    rewrite Hn, seq_length, Nat.eqb_refl, Nat2Z.id, array_split_nominal by lia. cbn [bind].
    rewrite Hlk. unfold ep. rewrite <- He, <- Hp.
    destruct (modify_fold_bounds_all g (nominal_bounds n k)) as [bs|err]; reflexivity. }
  assert (Hcomp : compatible g (fst ep) /\ compatible g (snd ep) /\
                  magnitude (fst ep) = in_units freq ga e /\ magnitude (snd ep) = in_units freq ga p /\
                  0 <= magnitude (fst ep) /\ 0 <= magnitude (snd ep)).
  { unfold ep, in_units, compatible, g. rewrite Hfr, <- He, <- Hp. destruct ga as [|gr|]; simpl in Hu; try tauto.
    destruct Hu as [_ [_ Hu]]. destruct (g_kind gr); destruct freq as [u|]; try tauto; cbn [fst snd to_timedelta magnitude];
    repeat split; auto; try nia. }
  destruct Hcomp as [C1 [C2 [C3 [C4 [C5 C6]]]]].
  destruct (modify_nominal g n k Hs Hn ltac:(lia)) as [M1 M2].
  assert (Hser : series_groups ga <-> is_series (g_kind g) = true).
  { unfold g. destruct ga; simpl; split; auto; try tauto; discriminate. }
  assert (Hlast : group_crosses n k G (G (n - 1)%nat) ->
                  exists j, (0 < j < k)%nat /\ blocking g n (fold_start n k j)).
  { intros [j [Hj [X1 X2]]]. exists j. split; auto. unfold blocking. rewrite <- !HG. split; [congruence|auto]. }
  assert (Hsers : series_groups ga -> (exists v, group_crosses n k G v) ->
                  exists j, (0 < j < k)%nat /\ blocking g n (fold_start n k j)).
  { intros Hx [v [j [Hj [X1 X2]]]]. exists j. split; auto. unfold blocking. rewrite <- !HG.
    split; [congruence|left; apply Hser; auto]. }
  split; [|split].
  - intros Hns Hc. rewrite Hr, M1 by auto. unfold block_exn.
    destruct (is_series (g_kind g)) eqn:E; [exfalso; apply Hns, Hser; auto|reflexivity].
  - intros Hx Hc. rewrite Hr, M1 by auto. unfold block_exn. apply Hser in Hx. rewrite Hx. reflexivity.
  - intros Hnl Hnc m.
    assert (Hnst : ~ exists j, (0 < j < k)%nat /\ blocking g n (fold_start n k j)).
    { intros [j [Hj [X1 X2]]]. rewrite <- !HG in *. destruct X2 as [X2|X2].
      - apply Hser in X2. apply Hnc; auto. exists (G (fold_start n k j)), j. auto.
      - apply Hnl. exists j. split; auto. split; congruence. }
    destruct (M2 Hnst) as [bs [M3 [M4 M5]]]. rewrite M3 in Hr.
    set (tests := if look then tl (map bound_range bs) else map bound_range bs) in *.
    assert (Hlt : (length tests + offset look)%nat = k).
    { unfold tests. destruct look; cbn [offset]; [|rewrite map_length; lia].
      destruct bs; simpl in M4; [lia|]. cbn [map tl]. rewrite map_length. lia. }
    assert (Hnth : forall j, nth_error tests j = nth_error (map bound_range bs) (j + offset look)).
    { intros j. unfold tests. destruct look; cbn [offset].
      - rewrite Nat.add_1_r. destruct bs; cbn [map tl nth_error]; [destruct j; reflexivity|reflexivity].
      - rewrite Nat.add_0_r. reflexivity. }
    assert (Hbsm := M3).
    destruct (modify_all_inv g n (nominal_bounds n k) bs Hs Hn ltac:(lia)) as [A1 [A2 A3]]; auto.
    { destruct (array_split_bounds n k ltac:(lia)) as [b0 [_ [B2 [_ [B3 _]]]]].
      rewrite <- blocks_nominal, <- B2 by lia. auto. }
    assert (Hstep : forall j t, nth_error tests j = Some t ->
      ((exists tr, kfold_train (seq 0 n) t g look (fst ep) (snd ep) = Ok tr) <-> fold_ok (j + offset look)%nat) /\
      ((look = true /\ ~ exists i, in_fold n k G (j + offset look)%nat i) ->
         kfold_train (seq 0 n) t g look (fst ep) (snd ep) = Raise IndexError) /\
      (~ (look = true /\ ~ exists i, in_fold n k G (j + offset look)%nat i) -> ~ fold_ok (j + offset look)%nat ->
         kfold_train (seq 0 n) t g look (fst ep) (snd ep) = Raise ValueError)).
    { intros j t Ht. rewrite Hnth in Ht. assert (Hmem := M5 _ _ Ht).
      assert (Hmem' : forall i, In i t <-> in_fold n k G (j + offset look)%nat i).
      { intros i. rewrite Hmem. apply in_fold_ext. auto. }
      destruct (adj0_folds g n bs 0%nat Hn A1 A3 t (nth_error_In _ _ Ht)) as [a [len [T1 [T2 [T3 T4]]]]].
      destruct (kfold_train_run n t g look (fst ep) (snd ep) a len T1 T2 ltac:(lia) T3 T4 C1 C2 C5 C6
                  ltac:(apply ascending_nondecr; auto) Hn) as [R1 [R2 [R3 [R4 R5]]]].
      rewrite C3, C4 in R4, R5.
      assert (Hkept : forall i, ((i < n)%nat /\
         ((forall j, In j t -> gat g i + in_units freq ga e < gat g j) \/
          (look = false /\ forall j, In j t -> gat g j + in_units freq ga p < gat g i)))
         <-> trainable n k G look (in_units freq ga e) (in_units freq ga p) (j + offset look)%nat i).
      { intros i. unfold trainable. split; intros [Q1 Q2]; (split; [auto|]).
        - destruct Q2 as [Q2|[Q2 Q3]]; [left|right; split; auto]; intros x Hx; apply Hmem' in Hx; rewrite !HG; auto.
        - destruct Q2 as [Q2|[Q2 Q3]]; [left|right; split; auto]; intros x Hx; apply Hmem' in Hx; rewrite <- !HG; auto. }
      assert (Hnp : numpy_groups ga <-> g_kind g = ArrInt).
      { unfold g. destruct ga; simpl; tauto. }
      assert (Hemp : t = [] -> ~ exists i, in_fold n k G (j + offset look)%nat i).
      { intros -> [i X]. apply Hmem' in X. destruct X. }
      assert (Hne : t <> [] -> exists i, in_fold n k G (j + offset look)%nat i).
      { intros X. destruct t as [|i t']; [congruence|]. exists i. apply Hmem'. simpl; auto. }
      assert (Hd : {t = []} + {t <> []}) by (destruct t; [left; auto|right; congruence]).
      destruct Hd as [Et|Et].
      - assert (Hno := Hemp Et). destruct look eqn:El.
        + assert (R := R1 Et eq_refl). rewrite R. split; [|split; auto].
          * split; [intros [tr X]; discriminate|]. intros [_ X]. destruct (Hno (X (or_intror eq_refl))).
          * intros X. exfalso; auto.
        + assert (Hdec : {g_kind g = ArrInt} + {g_kind g <> ArrInt}) by (destruct (g_kind g); [left|right|right|right]; congruence).
          destruct Hdec as [Ea|Ea].
          * assert (R := R2 Et eq_refl Ea). rewrite R. split; [|split; auto].
            -- split; [intros [tr X]; discriminate|]. intros [_ X].
               destruct (Hno (X (or_introl (proj2 Hnp Ea)))).
            -- intros [X _]; discriminate.
          * destruct (R3 Et eq_refl Ea) as [tr R]. rewrite R.
            assert (Hok : fold_ok (j + offset false)%nat).
            { split.
              - exists 0%nat. split; [lia|]. left. intros x Hx. destruct Hno; eauto.
              - intros [X|X]; [apply Hnp in X; contradiction|discriminate]. }
            split; [split; eauto|]. split; [intros [X _]; discriminate|]. intros _ X. contradiction.
      - assert (Hex := Hne Et).
        split; [|split].
        + split.
          * intros [tr R].
            split; [|auto].
            destruct (kfold_train_ok _ _ _ _ _ _ _ a len R T1 T2 T3 T4) as [_ [_ [_ [_ [Q1 [_ [_ [_ [Q2 _]]]]]]]]].
            destruct tr as [|i tr]; [congruence|]. exists i. apply Hkept. rewrite <- C3, <- C4. apply (Q2 Et). simpl; auto.
          * intros [[i Hi2] _]. apply R4; auto. exists i. apply Hkept; auto.
        + intros [_ X]. contradiction.
        + intros _ X. apply R5; auto. intros [i Hi2]. apply X. split; [|auto].
          exists i. apply Hkept; auto. }
    assert (Hrun := kfold_loop_run (seq 0 n) g look (fst ep) (snd ep) tests). cbv zeta in Hrun.
    rewrite <- Hr in Hrun. destruct Hrun as [L1 [L2 L3]].
    split; [unfold m; lia|]. split; [|split].
    + intros j Hj. unfold m in Hj.
      destruct (nth_error tests (j - offset look)) as [t|] eqn:Et.
      2:{ apply nth_error_None in Et. lia. }
      destruct (Hstep _ _ Et) as [S1 _]. replace (j - offset look + offset look)%nat with j in S1 by lia.
      apply S1. apply (L2 (j - offset look)%nat); auto. lia.
    + split.
      * intros Hd. destruct L3 as [[_ L3]|[t [err [_ [_ L3]]]]]; [unfold m; lia|congruence].
      * intros Hm. destruct L3 as [[L3 _]|[t [err [L3 _]]]]; auto.
        assert (X : (length (yields r) < length tests)%nat) by (apply nth_error_Some; congruence).
        unfold m in Hm. lia.
    + intros Hm. destruct L3 as [[_ L3]|[t [err [L3 [L4 L5]]]]]; [unfold m in Hm; lia|].
      destruct (Hstep _ _ L3) as [S1 [S2 S3]]. fold m in S1, S2, S3.
      assert (Hnok : ~ fold_ok m). { intros X. apply S1 in X as [tr X]. congruence. }
      split; auto. split; intros X.
      * rewrite S2 in L4 by auto. congruence.
      * rewrite S3 in L4 by auto. congruence.
Qed.
Print Assumptions C87_outcome.

(** Seven daily timestamps, two folds, one day of embargo: both folds are served. *)
Example C87_example :
  let d := 86400000000000 in
  let ga := GArr (mkG DtiTime [0; d; d; 4 * d; 4 * d; 5 * d; 6 * d]) in
  exists c, kfold_init (IInt (Z.of_nat 2)) (PDelta (DInt 1)) (PDelta (DInt 0)) false (Some d) = Ok c /\
  usable 7 ga (Some d) /\ 1 + 0 <= Z.of_nat 7 - Z.of_nat (7 / 2) /\
  yields (kfold_split c (XArr 7) YNone ga) = [([5;6],[0;1;2;3;4]); ([0;1;2],[5;6])]%nat /\
  ended (kfold_split c (XArr 7) YNone ga) = Done.
Proof.
  cbv zeta. eexists. split; [reflexivity|]. split.
  { cbn [usable g_val g_kind]. split; [|split; [reflexivity|lia]].
    apply ascending_nondecr, sortedb_spec. reflexivity. }
  split; [vm_compute; congruence|]. split; reflexivity.
Qed.

(** The last group crossing a boundary stops the run before it starts; in the second call everything around the
    second fold is purged or embargoed. *)
Example C87_example_failures :
  exists c, kfold_init (IInt (Z.of_nat 3)) (PDelta (DInt 4)) (PDelta (DInt 1)) false None = Ok c /\
  4 + 1 <= Z.of_nat 7 - Z.of_nat (7 / 3) /\
  kfold_split c (XArr 7) YNone (GArr (mkG ArrInt [0;1;2;3;4;4;4])) = mkGen [] (Raised IndexError) /\
  kfold_split c (XArr 7) YNone (GArr (mkG ArrInt [0;0;0;4;4;5;5]))
  = mkGen [([3;4;5;6],[0;1;2])]%nat (Raised ValueError).
Proof. eexists. split; [reflexivity|]. split; [vm_compute; congruence|]. split; reflexivity. Qed.

(** * C05, sharpened *)

(** the whole nominal fold j belongs to a group that started before it *)
Definition fold_swallowed (n k : nat) (G : nat -> Z) (j : nat) : Prop :=
  (0 < j < k)%nat /\
  forall i, (fold_start n k j <= i < fold_start n k (S j))%nat -> G i = G (fold_start n k j - 1)%nat.

Lemma swallowed_empty : forall n k G j, (0 < k <= n)%nat -> fold_swallowed n k G j -> ~ exists i, in_fold n k G j i.
Proof.
  intros n k G j Hk [Hj H] [i [Hi [s [[F1 [F2 F3]] F4]]]].
  assert (Hpos : (0 < fold_start n k j)%nat).
  { assert (X := fold_start_mono n k 0 j Hk ltac:(lia)). lia. }
  specialize (H s F4). apply (F3 (fold_start n k j - 1)%nat); [lia|congruence].
Qed.

Theorem C05_numpy_error_class : forall k e p look c n y ga j,
  kfold_init (IInt (Z.of_nat k)) (PDelta (DInt e)) (PDelta (DInt p)) look None = Ok c ->
  y <> YBad -> usable n ga None -> numpy_groups ga ->
  (k <= n)%nat -> e + p <= Z.of_nat n - Z.of_nat (n / k) ->
  fold_swallowed n k (group_of n ga) j ->
  let r := kfold_split c (XArr n) y ga in
  let G := group_of n ga in
  (group_crosses n k G (G (n - 1)%nat) -> r = mkGen [] (Raised IndexError)) /\
  (~ group_crosses n k G (G (n - 1)%nat) -> look = false -> ended r = Raised ValueError) /\
  (~ group_crosses n k G (G (n - 1)%nat) -> look = true -> ended r = Raised ValueError \/ ended r = Raised IndexError).
Proof.
  intros k e p look c n y ga j Hi Hy Hu Hnp Hkn Hset Hsw r G.
  assert (Hk : (0 < k)%nat) by (destruct Hsw; lia).
  assert (Hns : ~ series_groups ga).
  { intros X. destruct ga as [|g|]; simpl in *; auto. rewrite Hnp in X. discriminate. }
  destruct (C87_outcome k e p look None c n y ga Hi Hy Hu Hkn Hset) as [H1 [_ H3]]. fold r G in H1, H3.
  split; [auto|].
  assert (Hmain : ~ group_crosses n k G (G (n - 1)%nat) ->
     (look = false -> ended r = Raised ValueError) /\
     (look = true -> ended r = Raised ValueError \/ ended r = Raised IndexError)).
  { intros Hc. destruct (H3 Hc ltac:(intros; contradiction)) as [M1 [M2 [M3 M4]]]. clear H1 H3.
    assert (Hemp := swallowed_empty n k G j ltac:(lia) Hsw). destruct Hsw as [Hj _].
    assert (Hlt : (length (yields r) + offset look < k)%nat).
    { destruct (Nat.lt_ge_cases j (length (yields r) + offset look)); [|lia].
      destruct (M2 j) as [_ X]; [split; [destruct look; simpl in *; lia|auto]|]. destruct (Hemp (X (or_introl Hnp))). }
    destruct (M4 Hlt) as [_ [E1 E2]]. split; intros ->.
    - apply E2. intros [X _]; discriminate.
    - assert (Hnn : ~ ~ (ended r = Raised ValueError \/ ended r = Raised IndexError)).
      { intros X. apply X. right. apply E1. split; auto. intros Y. apply X. left. apply E2. intros [_ Z]. auto. }
      destruct (ended r) as [|err|]; [exfalso; apply Hnn; intros [X|X]; discriminate| |exfalso; apply Hnn; intros [X|X]; discriminate].
      destruct err; auto; exfalso; apply Hnn; intros [X|X]; discriminate. }
  split; intros Hc Hl; apply Hmain; auto.
Qed.
Print Assumptions C05_numpy_error_class.

(** Six samples in three folds: a middle group of three, and a last group of four. *)
Example C05_numpy_example :
  (forall l, l = [0;0;0;0;1;2] \/ l = [0;0;1;1;1;1] ->
     usable 6 (GArr (mkG ArrInt l)) None /\
     exists j, fold_swallowed 6 3 (group_of 6 (GArr (mkG ArrInt l))) j) /\
  exists c, kfold_init (IInt (Z.of_nat 3)) (PDelta (DInt 0)) (PDelta (DInt 0)) false None = Ok c /\
  ended (kfold_split c (XArr 6) YNone (GArr (mkG ArrInt [0;0;0;0;1;2]))) = Raised ValueError /\
  ended (kfold_split c (XArr 6) YNone (GArr (mkG ArrInt [0;0;1;1;1;1]))) = Raised IndexError.
Proof.
  split.
  - assert (H2 : fold_start 6 3 1 = 2%nat /\ fold_start 6 3 2 = 4%nat /\ fold_start 6 3 3 = 6%nat) by (repeat split).
    destruct H2 as [H2 [H3 H4]]. intros l [-> | ->]; (split;
      [cbn [usable g_val g_kind]; repeat split; auto; apply ascending_nondecr, sortedb_spec; reflexivity|]).
    + exists 1%nat. split; [lia|]. rewrite H2, H3. intros i Hi. assert (E : (i = 2 \/ i = 3)%nat) by lia.
      destruct E as [-> | ->]; reflexivity.
    + exists 2%nat. split; [lia|]. rewrite H3, H4. intros i Hi. assert (E : (i = 4 \/ i = 5)%nat) by lia.
      destruct E as [-> | ->]; reflexivity.
  - eexists. split; [reflexivity|]. split; reflexivity.
Qed.

(** With timestamps and look_forward=False the swallowed fold is yielded with an empty test set. *)
Theorem C05_timestamps_empty_test : forall k e p freq c n y g j,
  kfold_init (IInt (Z.of_nat k)) e p false freq = Ok c ->
  fold_swallowed n k (group_of n (GArr g)) j -> (k <= n)%nat ->
  ended (kfold_split c (XArr n) y (GArr g)) = Done ->
  exists tr, nth_error (yields (kfold_split c (XArr n) y (GArr g))) j = Some (tr, []).
Proof.
  intros k e p freq c n y g j Hi Hsw Hkn Hd.
  assert (Hlen := C04_kfold_number_of_splits _ _ _ _ _ _ _ _ _ Hi Hd). destruct Hlen as [Hlen Hnf]. cbv iota in Hnf.
  injection Hnf as Hnf.
  destruct (nth_error (yields (kfold_split c (XArr n) y (GArr g))) j) as [[tr te]|] eqn:E.
  2:{ apply nth_error_None in E. destruct Hsw. lia. }
  exists tr. destruct (C86_fold_assignment _ _ _ _ _ _ _ _ _ _ _ _ Hi E) as [_ H].
  destruct te as [|i te]; [reflexivity|]. exfalso. cbn [offset] in H. rewrite Nat.add_0_r in H.
  apply (swallowed_empty n k (group_of n (GArr g)) j); [destruct Hsw; lia|auto|]. exists i. apply H. simpl; auto.
Qed.
Print Assumptions C05_timestamps_empty_test.

Example C05_timestamps_example :
  let g := mkG DtiTime [0;0;0;0;1;2] in
  exists c, kfold_init (IInt (Z.of_nat 3)) (PDelta (DInt 0)) (PDelta (DInt 0)) false (Some 1) = Ok c /\
  kfold_split c (XArr 6) YNone (GArr g)
  = mkGen [([4;5],[0;1;2;3]); ([0;1;2;3;4;5],[]); ([0;1;2;3],[4;5])]%nat Done.
Proof. eexists. split; reflexivity. Qed.

(** * C88 *)

(** An integer Series of groups never yields anything, whatever the settings. *)
Theorem C88_integer_series : forall nf e p look freq c X y g,
  kfold_init nf e p look freq = Ok c -> g_kind g = SerInt ->
  yields (kfold_split c X y (GArr g)) = [] /\ exists err, ended (kfold_split c X y (GArr g)) = Raised err.
Proof.
  intros nf e p look freq c X y g Hi Hk.
  apply kfold_init_ok in Hi as [Hk2 _].
  unfold kfold_split. destruct (kfold_prepare c X y (GArr g)) as [[[[[ix g'] e'] p'] tests]|err] eqn:Ep.
  2:{ cbn [yields ended]. eauto. }
  apply kfold_prepare_ok in Ep as [bs [-> [HX [Hn [Hs [Hkn [Hg [_ [Hlen [_ [Ht _]]]]]]]]]]]; auto. subst g'.
  assert (Hne : tests <> []).
  { rewrite Ht. destruct (kf_look c); destruct bs as [|b1 [|b2 bs']]; simpl in *; try lia; congruence. }
  destruct tests as [|t ts]; [congruence|]. cbn [kfold_loop].
  assert (Hno : forall tr, kfold_train (seq 0 (x_rows X)) t g (kf_look c) e' p' <> Ok tr).
  { intros tr H. unfold kfold_train in H. apply bind_ok in H as [t0 [_ H]]. apply bind_ok in H as [t1 [H _]].
    unfold purge in H. apply bind_ok in H as [u [Hv H]]. apply bind_ok in H as [mx [_ H]]. apply bind_ok in H as [hi [H _]].
    unfold validate_purge_embargo_inputs in Hv. rewrite Hk in *. destruct p' as [a|a]; [discriminate|].
    unfold plus_delta_o, plus_delta in H. cbn [is_time] in H. destruct mx; discriminate. }
  destruct (kfold_train _ t g (kf_look c) e' p') as [tr|err]; [destruct (Hno tr); auto|].
  cbn [yields ended]. eauto.
Qed.
Print Assumptions C88_integer_series.

(** A Series of timestamps is handled exactly like the DatetimeIndex with the same values, unless a group crosses a
    nominal fold boundary, in which case the run raises KeyError before yielding (C87_outcome). *)
Theorem C88_timestamp_series : forall k e p look freq c n y vals,
  kfold_init (IInt (Z.of_nat k)) e p look freq = Ok c -> (k <= n)%nat ->
  (forall v, ~ group_crosses n k (fun i => nth i vals 0) v) ->
  kfold_split c (XArr n) y (GArr (mkG SerTime vals)) = kfold_split c (XArr n) y (GArr (mkG DtiTime vals)).
Proof.
  intros k e p look freq c n y vals Hi Hkn Hno.
  apply kfold_init_ok in Hi as [Hk [Hnf _]]. injection Hnf as Hnf.
  set (gs := mkG SerTime vals). set (gd := mkG DtiTime vals).
  assert (Hgi : forall i, (i < length vals)%nat -> getitem gs i = getitem gd i).
  { intros i Hi. rewrite !getitem_in by auto. reflexivity. }
  assert (Hmsel : forall ix f, mask_select ix gs f = mask_select ix gd f) by reflexivity.
  assert (Hval : forall d, validate_purge_embargo_inputs gs d = validate_purge_embargo_inputs gd d) by (intros [a|a]; reflexivity).
  assert (HM : forall ix, (forall i, In i ix -> (i < length vals)%nat) -> mapM (getitem gs) ix = mapM (getitem gd) ix).
  { intros ix H. rewrite !mapM_getitem_in by auto. reflexivity. }
  assert (Hloop : forall l e' p' tests, (forall t i, In t tests -> In i t -> (i < length vals)%nat) ->
     kfold_loop (seq 0 n) gs l e' p' tests = kfold_loop (seq 0 n) gd l e' p' tests).
  { intros l e' p'. induction tests as [|t ts IH]; intros H; [reflexivity|]. cbn [kfold_loop].
    assert (Et : kfold_train (seq 0 n) t gs l e' p' = kfold_train (seq 0 n) t gd l e' p').
    { assert (Hts : forall i, In i t -> (i < length vals)%nat) by (intros; eapply H; simpl; eauto).
      unfold kfold_train, get_train_index_per_split, purge, embargo, sel_max, sel_min.
      rewrite !Hval, !HM by auto.
      assert (Hpd : forall o d, plus_delta_o (g_kind gs) o d = plus_delta_o (g_kind gd) o d) by reflexivity.
      destruct l; [destruct t as [|t0 t']; [reflexivity|]; rewrite Hgi by (apply Hts; simpl; auto)|]; reflexivity. }
    rewrite Et. destruct (kfold_train (seq 0 n) t gd l e' p'); auto. rewrite IH; auto.
    intros; eapply H; simpl; eauto. }
  unfold kfold_split, kfold_prepare. cbn [basecv_split g_val gs gd].
  destruct (match y with YBad => _ | _ => _ end) as [[]|err] eqn:Eb; [|reflexivity]. cbn [bind x_rows].
  assert (Hs : nondecr vals).
  { apply sortedb_spec. destruct y; try discriminate; destruct (sortedb vals); auto; discriminate. }
  destruct (validate_split_settings n (kf_folds c) (kf_embargo c) (kf_purge c)) as [[]|err]; [|reflexivity]. cbn [bind].
  cbv zeta. rewrite seq_length.
  destruct (Nat.eqb_spec (length vals) n) as [Hn|]; [|reflexivity].
  rewrite <- Hnf, Nat2Z.id, array_split_nominal by lia. cbn [bind].
  destruct (modify_nominal gs n k Hs Hn ltac:(lia)) as [_ M1].
  destruct (modify_nominal gd n k Hs Hn ltac:(lia)) as [_ M2].
  assert (Hst : forall g', g_val g' = vals -> ~ exists j, (0 < j < k)%nat /\ blocking g' n (fold_start n k j)).
  { intros g' Hv [j [Hj [B1 _]]]. unfold gat in B1. rewrite Hv in B1.
    apply (Hno (nth (fold_start n k j) vals 0)). exists j. auto. }
  destruct (M1 (Hst gs eq_refl)) as [bs1 [E1 [L1 F1]]]. destruct (M2 (Hst gd eq_refl)) as [bs2 [E2 [L2 F2]]].
  assert (Eb2 : map bound_range bs1 = map bound_range bs2).
  { apply nth_error_ext'. intros j.
    destruct (nth_error (map bound_range bs1) j) as [t1|] eqn:T1; destruct (nth_error (map bound_range bs2) j) as [t2|] eqn:T2; auto.
    - f_equal. assert (Hsrt : forall bs t, nth_error (map bound_range bs) j = Some t -> StronglySorted lt t).
      { intros bs t Ht. apply nth_error_In, in_map_iff in Ht as [[a b] [<- _]]. apply seq_sorted. }
      apply sorted_ext; eauto. intros x. rewrite (F1 _ _ T1), (F2 _ _ T2). reflexivity.
    - apply nth_error_None in T2. assert (X : (j < length (map bound_range bs1))%nat) by (apply nth_error_Some; congruence).
      rewrite map_length in *. lia.
    - apply nth_error_None in T1. assert (X : (j < length (map bound_range bs2))%nat) by (apply nth_error_Some; congruence).
      rewrite map_length in *. lia. }
  fold gs gd. rewrite E1, E2. cbn [bind]. rewrite Eb2. apply Hloop.
  intros t i Ht Hin.
  assert (Ht' : In t (map bound_range bs2)).
  { destruct (kf_look c); auto. destruct (map bound_range bs2); simpl in *; auto. }
  apply In_nth_error in Ht' as [j Hj]. apply (F2 _ _ Hj) in Hin. destruct Hin. lia.
Qed.
Print Assumptions C88_timestamp_series.

Example C88_example :
  let d := 86400000000000 in
  exists c, kfold_init (IInt (Z.of_nat 2)) (PDelta (DInt 1)) (PDelta (DInt 1)) false (Some d) = Ok c /\
  (forall v, ~ group_crosses 6 2 (fun i => nth i [0; 0; d; 3 * d; 5 * d; 5 * d] 0) v) /\
  kfold_split c (XArr 6) YNone (GArr (mkG SerTime [0; 0; d; 3 * d; 5 * d; 5 * d]))
  = mkGen [([3;4;5],[0;1;2]); ([0;1;2],[3;4;5])]%nat Done /\
  kfold_split c (XArr 6) YNone (GArr (mkG SerTime [0; 0; d; d; 5 * d; 5 * d])) = mkGen [] (Raised KeyError) /\
  kfold_split c (XArr 6) YNone (GArr (mkG SerInt [0; 0; d; 3 * d; 5 * d; 5 * d])) = mkGen [] (Raised TypeError).
Proof.
  cbv zeta. eexists. split; [reflexivity|]. split.
  - intros v [j [Hj [A B]]]. assert (j = 1)%nat by lia. subst j. vm_compute in A, B. congruence.
  - repeat split; reflexivity.
Qed.
