(** Property theorems for TimeAwareKFold and the purge/embargo helpers: C01-C08, C16. *)
From Coq Require Import List ZArith Bool Arith Lia Sorted ZifyBool.
From Verif Require Import Base Split_Model Split_Proofs Kfold_Proofs.
Import ListNotations.
Open Scope Z_scope.

(** * Specification vocabulary *)

(** The list of group values a call works with: the given groups, or 0..n-1. *)
Definition group_values (n : nat) (ga : garg) : list Z :=
  match ga with GArr g => g_val g | _ => map Z.of_nat (seq 0 n) end.

(** Group value of sample i. *)
Definition group_of (n : nat) (ga : garg) (i : nat) : Z := nth i (group_values n ga) 0.

(** Groups are a numpy integer array or omitted. *)
Definition numpy_groups (ga : garg) : Prop := match ga with GArr g => g_kind g = ArrInt | _ => True end.

(** A periods count k expressed in group units: k, or k units of freq when groups and freq are given. *)
Definition in_units (freq : option Z) (ga : garg) (k : Z) : Z :=
  match ga, freq with GArr _, Some u => k * u | _, _ => k end.

Lemma map_repeat' : forall A B (f : A -> B) a n, map f (repeat a n) = repeat (f a) n.
Proof. induction n; simpl; congruence. Qed.

Definition contiguous (t : list nat) : Prop := exists a len, t = seq a len.

Lemma group_of_gat : forall n ga g, g = match ga with GArr g => g | _ => arange_groups n end ->
  forall i, group_of n ga i = gat g i.
Proof. intros n ga g -> i. destruct ga; reflexivity. Qed.

Lemma kfold_init_ok : forall nf e p look freq c, kfold_init nf e p look freq = Ok c ->
  2 <= kf_folds c /\ nf = IInt (kf_folds c) /\ kf_look c = look /\ kf_freq c = freq /\
  e = PDelta (kf_embargo c) /\ p = PDelta (kf_purge c) /\ 0 <= dval (kf_embargo c) /\ 0 <= dval (kf_purge c).
Proof.
  unfold kfold_init, basecv_init; intros nf e p look freq c H.
  apply bind_ok in H as [ep [H1 H]]. destruct e as [e|]; [|discriminate]. destruct p as [p|]; [|discriminate].
  destruct nf as [k|]; [|discriminate]. destruct (Z.ltb_spec k 2); [discriminate|]. injection H as <-. simpl.
  destruct e as [e|e]; destruct p as [p|p];
    repeat match type of H1 with (if ?b then _ else _) = _ => destruct b eqn:?; [discriminate|] end;
    injection H1 as <-; simpl in *; repeat split; auto; lia.
Qed.

(** * C01 *)
Theorem C01_kfold_tests_partition : forall nf e p look freq c X y ga,
  kfold_init nf e p look freq = Ok c ->
  ended (kfold_split c X y ga) = Done ->
  let tests := map snd (yields (kfold_split c X y ga)) in
  Forall contiguous tests /\
  (look = false -> concat tests = seq 0 (x_rows X)) /\
  (look = true -> exists t0, t0 <> [] /\ concat (t0 :: tests) = seq 0 (x_rows X)) /\
  (numpy_groups ga -> Forall (fun t => t <> []) tests) /\
  (look = true -> Forall (fun t => t <> []) tests).
Proof.
  intros nf e p look freq c X y ga Hi Hd. apply kfold_init_ok in Hi as [Hk [_ [Hlk _]]].
  unfold kfold_split in *. destruct (kfold_prepare c X y ga) as [[[[[ix g] e'] p'] tests]|] eqn:Ep; [|discriminate].
  apply kfold_prepare_ok in Ep as [bs [-> [HX [Hn [Hs [Hkn [Hg [Hadj [Hlen [Hal [Ht _]]]]]]]]]]]; auto.
  assert (Hall : forall t, In t tests -> In t (map bound_range bs)).
  { intros t Hin. rewrite Ht in Hin. destruct (kf_look c); auto. destruct (map bound_range bs); simpl in *; auto. }
  assert (Hne : forall t, In t tests -> (numpy_groups ga \/ look = true) -> t <> []).
  { intros t Hin Hor. rewrite <- (kfold_loop_done _ _ _ _ _ _ Hd) in Hin.
    apply in_map_iff in Hin as [[tr te] [<- Hin]]. apply kfold_loop_pairs in Hin as [Hin Htr].
    destruct (adj0_folds g _ bs 0%nat Hn Hadj Hal te (Hall _ Hin)) as [a [len [E1 [E2 [A1 A2]]]]].
    destruct (kfold_train_ok _ _ _ _ _ _ _ a len Htr E1 E2 A1 A2) as [_ [_ [_ [_ [_ [_ [Q1 [Q2 _]]]]]]]].
    destruct Hor as [Hor|Hor]; [|simpl; apply Q2; congruence].
    simpl; apply Q1. rewrite Hg. destruct ga as [|g'|]; simpl in *; auto. }
  rewrite (kfold_loop_done _ _ _ _ _ _ Hd). cbv zeta. split; [|split; [|split; [|split]]].
  - apply Forall_forall. intros t Hin.
    destruct (adj0_folds g _ bs 0%nat Hn Hadj Hal t (Hall _ Hin)) as [a [len [E1 _]]]. exists a, len; auto.
  - intros ->. rewrite Ht, Hlk. rewrite (bound_ranges_concat _ _ _ Hadj). f_equal; lia.
  - intros ->. rewrite Ht, Hlk.
    destruct bs as [|[a b] rest]; [simpl in *; lia|]. exists (bound_range (a, b)).
    split.
    + simpl in Hadj. destruct Hadj as [-> _]. unfold bound_range; simpl. congruence.
    + rewrite <- (Nat.sub_0_r (x_rows X)). rewrite <- (bound_ranges_concat _ _ _ Hadj). reflexivity.
  - intros H. apply Forall_forall. intros t Hin; apply Hne; auto.
  - intros H. apply Forall_forall. intros t Hin; apply Hne; auto.
Qed.
Print Assumptions C01_kfold_tests_partition.

(** look_forward only drops the first fold. *)
Theorem C01_look_forward_drops_first : forall k e p freq X y ga,
  2 <= k ->
  ended (kfold_split (mkKF k e p false freq) X y ga) = Done ->
  ended (kfold_split (mkKF k e p true freq) X y ga) = Done ->
  map snd (yields (kfold_split (mkKF k e p true freq) X y ga))
  = tl (map snd (yields (kfold_split (mkKF k e p false freq) X y ga))).
Proof.
  intros k e p freq X y ga Hk H1 H2. unfold kfold_split in *.
  destruct (kfold_prepare (mkKF k e p false freq) X y ga) as [[[[[ix g] e'] p'] tests]|] eqn:Ep; [|discriminate].
  destruct (kfold_prepare (mkKF k e p true freq) X y ga) as [[[[[ix2 g2] e2] p2] tests2]|] eqn:Ep2; [|discriminate].
  assert (E : tests2 = tl tests /\ ix2 = seq 0 (x_rows X) /\ ix = seq 0 (x_rows X)).
  { clear H1 H2. unfold kfold_prepare in *. simpl in *.
    destruct (basecv_split X y ga); simpl in *; [|discriminate].
    destruct (validate_split_settings (x_rows X) k e p); simpl in *; [|discriminate].
    destruct (Nat.eqb _ _); [|discriminate].
    destruct (mapM fold_bound _); simpl in *; [|discriminate].
    destruct (modify_fold_bounds_all _ _); simpl in *; [|discriminate].
    injection Ep as <- <- <- <- <-. injection Ep2 as <- <- <- <- <-. auto. }
  destruct E as [-> [-> ->]]. rewrite !kfold_loop_done by auto. reflexivity.
Qed.
Print Assumptions C01_look_forward_drops_first.

Example C01_example :
  exists c, kfold_init (IInt 3) (PDelta (DInt 1)) (PDelta (DInt 1)) false None = Ok c /\
  ended (kfold_split c (XArr 7) YNone (GArr (mkG ArrInt [0;0;0;1;2;2;5]))) = Done /\
  map snd (yields (kfold_split c (XArr 7) YNone (GArr (mkG ArrInt [0;0;0;1;2;2;5])))) = [[0;1;2];[3;4;5];[6]]%nat.
Proof. eexists; split; [reflexivity|]. vm_compute. auto. Qed.

(** * C02 *)
Theorem C02_kfold_no_group_leak : forall nf e p look freq c X y ga tr te,
  kfold_init nf e p look freq = Ok c ->
  In (tr, te) (yields (kfold_split c X y ga)) ->
  forall i j, In i tr -> In j te ->
  i <> j /\ group_of (x_rows X) ga i <> group_of (x_rows X) ga j.
Proof.
  intros nf e p look freq c X y ga tr te Hi H i j Hi1 Hj.
  apply kfold_init_ok in Hi as [Hk _].
  unfold kfold_split in *. destruct (kfold_prepare c X y ga) as [[[[[ix g] e'] p'] tests]|] eqn:Ep; [|simpl in H; tauto].
  apply kfold_prepare_ok in Ep as [bs [-> [HX [Hn [Hs [Hkn [Hg [Hadj [Hlen [Hal [Ht _]]]]]]]]]]]; auto.
  apply kfold_loop_pairs in H as [Hin Htr].
  assert (Hin2 : In te (map bound_range bs)).
  { rewrite Ht in Hin. destruct (kf_look c); auto. destruct (map bound_range bs); simpl in *; auto. }
  destruct (adj0_folds g _ bs 0%nat Hn Hadj Hal te Hin2) as [a [len [E1 [E2 [A1 A2]]]]].
  destruct (kfold_train_ok _ _ _ _ _ _ _ a len Htr E1 E2 A1 A2) as [_ [_ [P1 [P2 [_ [_ [_ [_ [Q _]]]]]]]]].
  assert (Hne : te <> []) by (destruct te; simpl in *; [tauto|congruence]).
  rewrite (Q Hne) in Hi1. rewrite !(group_of_gat _ _ _ Hg).
  assert (gat g i <> gat g j).
  { destruct Hi1 as [_ [HL|[_ HR]]]; [specialize (HL j Hj)|specialize (HR j Hj)]; lia. }
  split; [intros ->|]; auto.
Qed.
Print Assumptions C02_kfold_no_group_leak.

(** * C03 *)
Theorem C03_kfold_train_exact : forall nf e p look freq c X y ga tr te,
  kfold_init nf (PDelta (DInt e)) (PDelta (DInt p)) look freq = Ok c ->
  In (tr, te) (yields (kfold_split c X y ga)) ->
  tr <> [] /\ StronglySorted lt tr /\
  (te <> [] ->
   forall i, In i tr <-> (i < x_rows X)%nat /\
     ((forall j, In j te -> group_of (x_rows X) ga i + in_units freq ga e < group_of (x_rows X) ga j) \/
      (look = false /\
       forall j, In j te -> group_of (x_rows X) ga j + in_units freq ga p < group_of (x_rows X) ga i))).
Proof.
  intros nf e p look freq c X y ga tr te Hi H.
  apply kfold_init_ok in Hi as [Hk [_ [Hlk [Hfr [He [Hp _]]]]]].
  injection He as He. injection Hp as Hp.
  unfold kfold_split in *. destruct (kfold_prepare c X y ga) as [[[[[ix g] e'] p'] tests]|] eqn:Ep; [|simpl in H; tauto].
  apply kfold_prepare_ok in Ep as [bs [-> [HX [Hn [Hs [Hkn [Hg [Hadj [Hlen [Hal [Ht [[e0 [p0 [U1 [U2 [U3 U4]]]]] _]]]]]]]]]]]]; auto.
  rewrite <- He in U1. rewrite <- Hp in U2. injection U1 as <-. injection U2 as <-. rewrite Hfr in U3, U4.
  apply kfold_loop_pairs in H as [Hin Htr].
  assert (Hin2 : In te (map bound_range bs)).
  { rewrite Ht in Hin. destruct (kf_look c); auto. destruct (map bound_range bs); simpl in *; auto. }
  destruct (adj0_folds g _ bs 0%nat Hn Hadj Hal te Hin2) as [a [len [E1 [E2 [A1 A2]]]]].
  destruct (kfold_train_ok _ _ _ _ _ _ _ a len Htr E1 E2 A1 A2) as [_ [_ [_ [_ [R1 [R2 [_ [_ [Q _]]]]]]]]].
  split; [auto|]. split; [auto|]. intros Hne i. rewrite (Q Hne).
  assert (Ee : in_units freq ga e = dval e').
  { unfold in_units. destruct ga; destruct freq; lia. }
  assert (Epp : in_units freq ga p = dval p').
  { unfold in_units. destruct ga; destruct freq; lia. }
  rewrite Ee, Epp, Hlk. setoid_rewrite (group_of_gat _ _ _ Hg). reflexivity.
Qed.
Print Assumptions C03_kfold_train_exact.

(** A pair with purge and embargo in action: groups 0..7, folds of two, embargo 1, purge 1. *)
Example C03_example :
  exists c, kfold_init (IInt 4) (PDelta (DInt 1)) (PDelta (DInt 1)) false None = Ok c /\
  In ([0; 5; 6; 7], [2; 3])%nat (yields (kfold_split c (XArr 8) YNone GNone)).
Proof. eexists; split; [reflexivity|]. vm_compute. auto. Qed.

(** The same on timestamps with freq = 1 day (86400 * 10^9 ns), repeated days, look_forward. *)
Example C03_example_time :
  let d := 86400000000000 in
  exists c, kfold_init (IInt 3) (PDelta (DInt 1)) (PDelta (DInt 0)) true (Some d) = Ok c /\
  yields (kfold_split c (XArr 7) YArr (GArr (mkG DtiTime [0; d; d; 2*d; 3*d; 3*d; 4*d])))
  = [([0], [3; 4; 5])%nat; ([0; 1; 2; 3], [6])%nat].
Proof. eexists; split; [reflexivity|]. vm_compute. auto. Qed.

(** * C04 *)
Theorem C04_kfold_number_of_splits : forall nf e p look freq c X y ga,
  kfold_init nf e p look freq = Ok c ->
  ended (kfold_split c X y ga) = Done ->
  Z.of_nat (length (yields (kfold_split c X y ga))) = kfold_get_n_splits c /\
  nf = IInt (if look then kfold_get_n_splits c + 1 else kfold_get_n_splits c).
Proof.
  intros nf e p look freq c X y ga Hi Hd. apply kfold_init_ok in Hi as [Hk [Hnf [Hlk _]]].
  split; [|rewrite Hnf; unfold kfold_get_n_splits; rewrite Hlk; destruct look; f_equal; lia].
  unfold kfold_split in *. destruct (kfold_prepare c X y ga) as [[[[[ix g] e'] p'] tests]|] eqn:Ep; [|discriminate].
  apply kfold_prepare_ok in Ep as [bs [-> [HX [Hn [Hs [Hkn [Hg [Hadj [Hlen [Hal [Ht _]]]]]]]]]]]; auto.
  rewrite <- (map_length snd), (kfold_loop_done _ _ _ _ _ _ Hd), Ht.
  unfold kfold_get_n_splits. destruct (kf_look c).
  - assert (length (tl (map bound_range bs)) = length bs - 1)%nat; [|lia].
    destruct bs; simpl; [auto|]. rewrite map_length; lia.
  - rewrite map_length. lia.
Qed.
Print Assumptions C04_kfold_number_of_splits.

Example C04_example : exists c, kfold_init (IInt 4) (PDelta (DInt 1)) (PDelta (DInt 1)) true None = Ok c /\
  ended (kfold_split c (XArr 12) YNone GNone) = Done /\ kfold_get_n_splits c = 3.
Proof. eexists; split; [reflexivity|]. vm_compute. auto. Qed.

(** * C05 *)
(** With numpy groups, a nominal fold (a piece of np.array_split) lying entirely inside a group that started before
    it makes the run fail. *)
Theorem C05_group_filling_a_fold_fails : forall nf e p look freq c n y g fold a,
  kfold_init nf e p look freq = Ok c ->
  g_kind g = ArrInt ->
  In fold (array_split (seq 0 n) (Z.to_nat (kf_folds c))) ->
  hd_error fold = Some a -> (0 < a)%nat ->
  (forall i, In i fold -> nth_error (g_val g) i = nth_error (g_val g) (a - 1)) ->
  exists err, ended (kfold_split c (XArr n) y (GArr g)) = Raised err.
Proof.
  intros nf e p look freq c n y g fold a Hi Hkd Hfold Hhd Ha Hsame.
  apply kfold_init_ok in Hi as [Hk [_ [Hlk _]]].
  destruct (ended (kfold_split c (XArr n) y (GArr g))) as [|err|] eqn:Hd; [exfalso| eauto | exfalso].
  2:{ unfold kfold_split in Hd. destruct (kfold_prepare c (XArr n) y (GArr g)) as [[[[[ix g'] e'] p'] tests]|]; [|discriminate].
      clear -Hd. induction tests as [|t ts IH]; simpl in Hd; [discriminate|].
      destruct (kfold_train ix t g' (kf_look c) e' p'); simpl in Hd; [auto|discriminate]. }
  assert (Hc := C01_kfold_tests_partition).
  unfold kfold_split in *.
  destruct (kfold_prepare c (XArr n) y (GArr g)) as [[[[[ix g'] e'] p'] tests]|] eqn:Ep; [|discriminate].
  apply kfold_prepare_ok in Ep as [bs [-> [HX [Hn [Hs [Hkn [Hg [Hadj [Hlen [Hal [Ht [_ [bs0 [B1 Hm]]]]]]]]]]]]]]; auto.
  simpl in *. subst g'. clear Hc.
  destruct (array_split_bounds n (Z.to_nat (kf_folds c)) ltac:(lia)) as [bs1 [B1' [B2 [B3 [B4 B5]]]]].
  rewrite B1 in B1'. injection B1' as <-.
  rewrite B3 in Hfold. apply in_map_iff in Hfold as [[a' b'] [Hf Hin]].
  assert (Hab : a' = a /\ (a <= b')%nat).
  { rewrite <- Hf in Hhd. unfold bound_range in Hhd; cbn [fst snd] in Hhd.
    destruct (S b' - a')%nat eqn:E; simpl in Hhd; [discriminate|]. injection Hhd as <-. lia. }
  destruct Hab as [-> Hab].
  assert (Hbn : (b' < n)%nat).
  { clear -B4 Hin. revert B4 Hin. generalize 0%nat as p. induction bs0 as [|[u v] bs0 IH]; simpl; intros p A H; [tauto|].
    destruct A as [-> [A1 A2]]. assert (Hle := adj_le _ _ _ A2). destruct H as [H|H]; [injection H as <- <-; lia|eauto]. }
  assert (Hlt : gat g (a - 1) < gat g b').
  { destruct bs0 as [|[a0 b0] rest]; [simpl in *; tauto|].
    simpl in Hin. destruct Hin as [Hin|Hin].
    { injection Hin as -> ->. simpl in B4. lia. }
    simpl in B4. destruct B4 as [-> [B4 B6]]. assert (Hle := adj_le _ _ _ B6).
    simpl in Hm.
    apply (modify_nonempty g n Hs Hn rest 0%nat b0 bs); [exact B6|lia|exact Hm| |exact Hin].
    intros u v Huv. assert (Htne : forall t, In t (tl (map bound_range bs)) -> t <> []).
    { intros t Hti. assert (Hti2 : In t tests).
      { rewrite Ht. destruct (kf_look c); auto. destruct (map bound_range bs); simpl in *; auto. }
      rewrite <- (kfold_loop_done _ _ _ _ _ _ Hd) in Hti2.
      apply in_map_iff in Hti2 as [[tr te] [<- Hpr]]. apply kfold_loop_pairs in Hpr as [Hpr Htr].
      assert (Hte : In te (map bound_range bs)).
      { rewrite Ht in Hpr. destruct (kf_look c); auto. destruct (map bound_range bs); simpl in *; auto. }
      destruct (adj0_folds g _ bs 0%nat Hn Hadj Hal te Hte) as [x [len [E1 [E2 [A1 A2]]]]].
      destruct (kfold_train_ok _ _ _ _ _ _ _ x len Htr E1 E2 A1 A2) as [_ [_ [_ [_ [_ [_ [Q1 _]]]]]]].
      simpl; auto. }
    specialize (Htne (bound_range (u, v))).
    assert (Hi2 : In (bound_range (u, v)) (tl (map bound_range bs))).
    { destruct bs; simpl in *; [tauto|]. apply in_map; auto. }
    specialize (Htne Hi2). unfold bound_range in Htne; cbn [fst snd] in Htne.
    destruct (Nat.le_gt_cases u v); auto. replace (S v - u)%nat with 0%nat in Htne by lia. simpl in Htne. congruence. }
  assert (Hsm : nth_error (g_val g) b' = nth_error (g_val g) (a - 1)).
  { apply Hsame. rewrite <- Hf. unfold bound_range; cbn [fst snd]. apply in_seq. lia. }
  rewrite !(nth_error_nth' _ 0) in Hsm by lia. injection Hsm as Hsm. unfold gat in Hlt. lia.
Qed.
Print Assumptions C05_group_filling_a_fold_fails.

Example C05_example : exists c, kfold_init (IInt 3) (PDelta (DInt 0)) (PDelta (DInt 0)) false None = Ok c /\
  In [2; 3]%nat (array_split (seq 0 6) (Z.to_nat (kf_folds c))) /\
  ended (kfold_split c (XArr 6) YNone (GArr (mkG ArrInt [0;0;0;0;1;2]))) = Raised ValueError.
Proof. eexists; split; [reflexivity|]. vm_compute. auto. Qed.

(** Hence "three distinct sorted groups can be split in three folds" is false, and on a DatetimeIndex the run
    completes but yields an empty test set. *)
Theorem C05_kfold_enough_groups_suffice_refuted :
  exists c g, kfold_init (IInt 3) (PDelta (DInt 0)) (PDelta (DInt 0)) false None = Ok c /\
  g_kind g = ArrInt /\ nondecr (g_val g) /\ length (nodup Z.eq_dec (g_val g)) = 3%nat /\
  ended (kfold_split c (XArr 6) YNone (GArr g)) = Raised ValueError.
Proof.
  eexists. exists (mkG ArrInt [0;0;0;0;1;2]). split; [reflexivity|]. split; [reflexivity|].
  split; [apply sortedb_spec; reflexivity|]. vm_compute. auto.
Qed.
Print Assumptions C05_kfold_enough_groups_suffice_refuted.

Theorem C05_kfold_nonempty_tests_refuted :
  exists c g, kfold_init (IInt 3) (PDelta (DInt 0)) (PDelta (DInt 0)) false (Some 1) = Ok c /\
  g_kind g = DtiTime /\ nondecr (g_val g) /\
  ended (kfold_split c (XArr 6) YNone (GArr g)) = Done /\
  In [] (map snd (yields (kfold_split c (XArr 6) YNone (GArr g)))).
Proof.
  eexists. exists (mkG DtiTime [0;0;0;0;1;2]). split; [reflexivity|]. split; [reflexivity|].
  split; [apply sortedb_spec; reflexivity|]. vm_compute. auto.
Qed.
Print Assumptions C05_kfold_nonempty_tests_refuted.

(** * C06 *)
Theorem C06_kfold_default_groups : forall k e p freq c n y,
  kfold_init (IInt k) (PDelta (DInt e)) (PDelta (DInt p)) false freq = Ok c ->
  k <= Z.of_nat n -> y <> YBad ->
  e + p < Z.of_nat n - (Z.of_nat n + k - 1) / k ->
  let r := kfold_split c (XArr n) y GNone in
  ended r = Done /\
  exists q m, Z.of_nat n = q * k + m /\ 0 <= m < k /\
    map (fun t => Z.of_nat (length (snd t))) (yields r)
    = repeat (q + 1) (Z.to_nat m) ++ repeat q (Z.to_nat (k - m)).
Proof.
  intros k e p freq c n y Hi Hk Hy Hroom. assert (Hi2 := Hi).
  apply kfold_init_ok in Hi as [H1 [H2 [H3 [H4 [H5 [H6 [H7 H8]]]]]]].
  injection H2 as H2. injection H5 as H5. injection H6 as H6.
  rewrite <- H5 in H7. rewrite <- H6 in H8. simpl in H7, H8.
  assert (Hc : c = mkKF k (DInt e) (DInt p) false freq) by (destruct c; simpl in *; congruence).
  rewrite Hc. destruct (kfold_default_success k e p freq n y ltac:(lia) H7 H8 Hy Hroom) as [D1 D2].
  cbv zeta. split; [exact D1|].
  exists (Z.of_nat n / k), (Z.of_nat n mod k).
  split; [rewrite (Z.div_mod (Z.of_nat n) k) at 1; lia|]. split; [apply Z.mod_pos_bound; lia|].
  replace (map (fun t => Z.of_nat (length (snd t)))
      (yields (kfold_split (mkKF k (DInt e) (DInt p) false freq) (XArr n) y GNone)))
    with (map Z.of_nat (map (@length nat) (map snd (yields (kfold_split (mkKF k (DInt e) (DInt p) false freq) (XArr n) y GNone)))))
    by (rewrite !map_map; reflexivity).
  rewrite D2. unfold split_sizes. rewrite map_app, !map_repeat'.
  assert (Hq : Z.of_nat (n / Z.to_nat k) = Z.of_nat n / k) by (rewrite Nat2Z.inj_div; f_equal; lia).
  assert (Hr : Z.of_nat (n mod Z.to_nat k) = Z.of_nat n mod k) by (rewrite Nat2Z.inj_mod; f_equal; lia).
  f_equal; f_equal; lia.
Qed.
Print Assumptions C06_kfold_default_groups.

Example C06_example : exists c, kfold_init (IInt 4) (PDelta (DInt 2)) (PDelta (DInt 1)) false None = Ok c /\
  4 <= Z.of_nat 10 /\ 2 + 1 < Z.of_nat 10 - (Z.of_nat 10 + 4 - 1) / 4.
Proof. eexists; split; [reflexivity|]. vm_compute. split; congruence. Qed.

(** The settings check alone does not guarantee success: 3 samples, 2 folds, purge 1 and embargo 1 pass it, but the
    first fold is left without training samples. *)
Theorem C06_validated_settings_suffice_refuted :
  exists c n, kfold_init (IInt 2) (PDelta (DInt 1)) (PDelta (DInt 1)) false None = Ok c /\
  validate_split_settings n (kf_folds c) (kf_embargo c) (kf_purge c) = Ok tt /\
  ended (kfold_split c (XArr n) YNone GNone) = Raised ValueError.
Proof. eexists. exists 3%nat. split; [reflexivity|]. vm_compute. auto. Qed.
Print Assumptions C06_validated_settings_suffice_refuted.
