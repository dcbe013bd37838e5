(** Property theorems for WalkForward: C09-C15, C17. *)
From Coq Require Import List ZArith Bool Arith Lia Sorted ZifyBool.
From Verif Require Import Base Split_Model Split_Proofs Walk_Proofs Kfold_Proofs Kfold_Props.
Import ListNotations.
Open Scope Z_scope.

(** * Specification vocabulary *)

(** Length of one time unit: 1, or the length of freq. *)
Definition unit_of (freq : option Z) : Z := match freq with Some u => u | None => 1 end.

(** Integer groups (or none) without freq; a DatetimeIndex with freq. *)
Definition natural_groups (freq : option Z) (ga : garg) : Prop :=
  match freq, ga with
  | None, GNone => True
  | None, GArr g => g_kind g = ArrInt
  | Some _, GArr g => g_kind g = DtiTime
  | _, _ => False
  end.

(** Embargo period in group units; a Timedelta needs freq. *)
Definition embargo_is (freq : option Z) (d : delta) (e : Z) : Prop :=
  match freq, d with
  | None, DInt k => e = k
  | Some u, DInt k => e = k * u
  | Some _, DTd a => e = a
  | None, DTd _ => False
  end.

(** Consecutive samples are in the same group or exactly one unit apart. *)
Definition evenly_spaced (u : Z) (l : list Z) : Prop :=
  forall i, (S i < length l)%nat -> nth (S i) l 0 - nth i l 0 = 0 \/ nth (S i) l 0 - nth i l 0 = u.

(** The situation of C09: valid splitter, evenly spaced groups of n samples, sensible windows. *)
Record even_run (e : delta) (p : parg) (tw xw : Z) (st : starg) (freq : option Z) (w : wforward) (o0 : wfobj)
  (n : nat) (y : yarg) (ga : garg) (emb : Z) : Prop := {
  er_init : wf_init (PDelta e) p tw xw st freq = Ok (w, o0);
  er_nat : natural_groups freq ga;
  er_emb : embargo_is freq e emb;
  er_unit : 0 < unit_of freq;
  er_y : y <> YBad;
  er_len : length (group_values n ga) = n;
  er_n : (0 < n)%nat;
  er_even : evenly_spaced (unit_of freq) (group_values n ga);
  er_tw : 1 <= tw;
  er_xw : 1 <= xw;
  er_fit : group_of n ga 0 + tw * unit_of freq + xw * unit_of freq - unit_of freq <= group_of n ga (n - 1);
  er_room : emb < tw * unit_of freq }.

(** j-th windows. *)
Definition window_start (st : starg) (freq : option Z) (xw : Z) (n : nat) (ga : garg) (j : nat) : Z :=
  match st with
  | SRolling => group_of n ga 0 + Z.of_nat j * (xw * unit_of freq)
  | _ => group_of n ga 0
  end.
Definition test_start (freq : option Z) (tw xw : Z) (n : nat) (ga : garg) (j : nat) : Z :=
  group_of n ga 0 + tw * unit_of freq + Z.of_nat j * (xw * unit_of freq).

Definition train_set (st : starg) (freq : option Z) (tw xw emb : Z) (n : nat) (ga : garg) (j : nat) : list nat :=
  filter (fun i => (window_start st freq xw n ga j <=? group_of n ga i) &&
                   (group_of n ga i + emb <? test_start freq tw xw n ga j)) (seq 0 n).
Definition test_set (freq : option Z) (tw xw : Z) (n : nat) (ga : garg) (j : nat) : list nat :=
  filter (fun i => (test_start freq tw xw n ga j <=? group_of n ga i) &&
                   (group_of n ga i <? test_start freq tw xw n ga (S j))) (seq 0 n).

(** J windows are needed to reach the last group. *)
Definition window_count (freq : option Z) (tw xw : Z) (n : nat) (ga : garg) (J : nat) : Prop :=
  (1 <= J)%nat /\
  test_start freq tw xw n ga (J - 1) <= group_of n ga (n - 1) < test_start freq tw xw n ga J.

Definition bump (o : wfobj) (k : nat) : wfobj := mkWO (wo_n o + Z.of_nat k) true.

(** * C09 *)
Lemma even_run_closed : forall e p tw xw st freq w o0 n y ga emb,
  even_run e p tw xw st freq w o0 n y ga emb ->
  exists J, window_count freq tw xw n ga J /\
  forall fuel o, (J <= fuel)%nat ->
  wf_split w fuel (XArr n) y ga o =
  (mkGen (map (fun j => (train_set st freq tw xw emb n ga j, test_set freq tw xw n ga j)) (seq 0 J)) Done, bump o J).
Proof.
  intros e p tw xw st freq w o0 n y ga emb [Hi Hnat Hemb Hu Hy Hlen Hn Hev Htw Hxw Hfit Hroom].
  set (g := match ga with GArr g => g | _ => arange_groups n end).
  assert (Hgv : group_values n ga = g_val g) by (unfold g; destruct ga; reflexivity).
  assert (Hgo : forall i, group_of n ga i = gat g i) by (intros; unfold group_of, gat; rewrite Hgv; auto).
  set (u := unit_of freq) in *.
  assert (Hkind : g_kind g = ArrInt \/ g_kind g = DtiTime).
  { unfold natural_groups in Hnat. unfold g. destruct freq; destruct ga; simpl in *; tauto. }
  assert (Htime : is_time (g_kind g) = match freq with Some _ => true | None => false end).
  { unfold natural_groups in Hnat. unfold g. destruct freq; destruct ga as [|g'|]; simpl in *; try tauto;
    rewrite Hnat; reflexivity. }
  unfold wf_init in Hi. apply bind_ok in Hi as [[de dp] [Hb Hi]].
  assert (Hde : de = e /\ 0 <= dval e).
  { unfold basecv_init in Hb. destruct p as [p|]; [|discriminate].
    destruct e as [a|a]; destruct p as [b|b]; simpl in Hb;
    destruct (Z.ltb_spec a 0); try discriminate; (try (destruct (b <? 0); discriminate));
    destruct (b <? 0); try discriminate; injection Hb as <- <-; auto. }
  destruct Hde as [-> Hde].
  assert (Hw : st <> SOther /\
    w = mkWF (match freq with Some u => to_timedelta e u | None => e end)
             (match freq with Some u => DTd (tw * u) | None => DInt tw end)
             (match freq with Some u => DTd (xw * u) | None => DInt xw end)
             (match st with SRolling => Rolling | _ => Expanding end) freq).
  { destruct st; try discriminate; (split; [discriminate|]); destruct freq; injection Hi as <- _; reflexivity. }
  destruct Hw as [Hst Hw].
  assert (EU : dval (wf_unit w) = u) by (rewrite Hw; unfold u, wf_unit; simpl; destruct freq; reflexivity).
  assert (EW : dval (wf_train w) = tw * u) by (rewrite Hw; unfold u; simpl; destruct freq; simpl; lia).
  assert (ET : dval (wf_test w) = xw * u) by (rewrite Hw; unfold u; simpl; destruct freq; simpl; lia).
  assert (EE : dval (wf_embargo w) = emb /\ 0 <= emb).
  { rewrite Hw; simpl. unfold embargo_is in Hemb. destruct freq as [u'|]; destruct e as [a|a]; simpl in *; try tauto; subst emb; split; auto.
    simpl in u. unfold u in Hu. nia. }
  destruct EE as [EE Hemb0].
  assert (Ty : forall d, match d with DInt _ => freq = None | DTd _ => freq <> None end -> typed (g_kind g) d).
  { intros [a|a] H; simpl; rewrite Htime; destruct freq; congruence. }
  assert (T1 : typed (g_kind g) (wf_unit w)) by (apply Ty; rewrite Hw; unfold wf_unit; simpl; destruct freq; congruence).
  assert (T2 : typed (g_kind g) (wf_train w)) by (apply Ty; rewrite Hw; simpl; destruct freq; congruence).
  assert (T3 : typed (g_kind g) (wf_test w)) by (apply Ty; rewrite Hw; simpl; destruct freq; congruence).
  assert (T4 : typed (g_kind g) (wf_embargo w)).
  { apply Ty; rewrite Hw; simpl. unfold embargo_is in Hemb. destruct freq; destruct e; simpl; try tauto; congruence. }
  rewrite Hgv in Hlen, Hev.
  assert (Hgrid : grid (dval (wf_unit w)) (g_val g)).
  { rewrite EU. intros i Hi2. specialize (Hev i Hi2). lia. }
  rewrite !Hgo in Hfit.
  assert (Hs : 0 < dval (wf_unit w)) by lia.
  assert (HW : exists a, 1 <= a /\ dval (wf_train w) = a * dval (wf_unit w)) by (exists tw; rewrite EU; auto).
  assert (HT : exists a, 1 <= a /\ dval (wf_test w) = a * dval (wf_unit w)) by (exists xw; rewrite EU; auto).
  assert (Hfit2 : gat g 0 + dval (wf_train w) - dval (wf_unit w) + dval (wf_test w) <= gat g (n - 1)) by lia.
  assert (He2 : 0 <= dval (wf_embargo w) < dval (wf_train w)) by lia.
  (* number of windows *)
  set (T := xw * u) in *. assert (HTpos : 0 < T) by (unfold T; nia).
  set (D := gat g (n - 1) - (gat g 0 + tw * u - u)).
  assert (HD : T <= D) by (unfold D; lia).
  set (J := Z.to_nat ((D + T - 1) / T)).
  assert (HJ1 : 1 <= (D + T - 1) / T) by (apply Z.div_le_lower_bound; lia).
  assert (HJz : Z.of_nat J = (D + T - 1) / T) by (unfold J; lia).
  assert (HJ2 : (Z.of_nat J - 1) * T < D <= Z.of_nat J * T).
  { rewrite HJz. assert (Hdm := Z.div_mod (D + T - 1) T ltac:(lia)).
    assert (Hmb := Z.mod_pos_bound (D + T - 1) T HTpos). nia. }
  assert (Hcount : gat g 0 + tw * u - u + (0 + Z.of_nat J - 1) * T < gat g (n - 1) <= gat g 0 + tw * u - u + (0 + Z.of_nat J) * T)
    by (unfold D in HJ2; lia).
  exists J. split.
  { unfold window_count, test_start. split; [lia|]. rewrite !Hgo. fold u. fold T.
    (* grid: last - first is a multiple of u *)
    destruct (grid_multiple u (g_val g) ltac:(rewrite <- EU; exact Hgrid) (n - 1)%nat ltac:(lia)) as [k Hk].
    fold (gat g (n - 1)) (gat g 0) in Hk. rewrite Hk in *. unfold D in *. unfold T in *.
    replace (Z.of_nat (J - 1)) with (Z.of_nat J - 1) by lia.
    assert (K1 : tw - 1 + (Z.of_nat J - 1) * xw < k) by nia.
    assert (K2 : k <= tw - 1 + Z.of_nat J * xw) by nia.
    split; nia. }
  intros fuel o Hfuel. unfold wf_split.
  assert (Hbs : basecv_split (XArr n) y ga = Ok tt).
  { simpl. unfold natural_groups in Hnat. destruct y; try congruence; destruct ga as [|g'|]; auto;
    try (destruct freq; tauto); unfold g in Hgrid;
    (rewrite (proj2 (sortedb_spec (g_val g')) (grid_nondecr _ _ Hs Hgrid)); auto). }
  rewrite Hbs. simpl x_rows. fold g.
  rewrite (cf_start w g n Hkind T1 T2 T3 Hlen Hn Hs Hgrid HW HT Hfit2).
  rewrite (cf_loop w g n Hkind T1 T2 T3 T4 Hlen Hn Hs Hgrid HW HT Hfit2 He2 J 0 fuel o ltac:(lia) ltac:(lia) Hfuel)
    by (rewrite EU, EW, ET; exact Hcount).
  unfold bump. f_equal. f_equal. apply map_ext. intros j. rewrite Z.add_0_l. f_equal.
  - unfold wtrain, train_set. apply filter_ext. intros i. rewrite Hgo.
    unfold wstart, window_start, test_start. rewrite !Hgo, EE, EW, ET. fold u. fold T.
    f_equal. rewrite Hw. simpl. destruct st; try congruence; reflexivity.
  - unfold wtest, test_set. apply filter_ext. intros i. unfold test_start. rewrite !Hgo, EW, ET. fold u. fold T.
    replace (Z.of_nat (S j)) with (Z.of_nat j + 1) by lia. reflexivity.
Qed.

Theorem C09_walk_forward_exact_windows : forall e p tw xw st freq w o0 n y ga emb,
  even_run e p tw xw st freq w o0 n y ga emb ->
  exists J, window_count freq tw xw n ga J /\
  forall fuel o, (J <= fuel)%nat ->
  wf_split w fuel (XArr n) y ga o =
  (mkGen (map (fun j => (train_set st freq tw xw emb n ga j, test_set freq tw xw n ga j)) (seq 0 J)) Done, bump o J).
Proof. exact even_run_closed. Qed.
Print Assumptions C09_walk_forward_exact_windows.

(** Integer groups with repetitions, train 2, test 2, embargo 1, rolling: three windows, the last one truncated. *)
Example C09_example : exists w o0,
  let ga := GArr (mkG ArrInt [3;3;4;5;6;6;7;8;9]) in
  even_run (DInt 1) (PDelta (DInt 0)) 2 2 SRolling None w o0 9 YNone ga 1 /\
  yields (fst (wf_split w 10 (XArr 9) YNone ga o0)) = [([0;1], [3;4;5]); ([3], [6;7]); ([6], [8])]%nat.
Proof.
  eexists; eexists; split.
  - constructor; try reflexivity; try (simpl; lia); try (simpl; congruence); try (vm_compute; congruence).
    intros i Hi. simpl in Hi. do 8 (destruct i as [|i]; [simpl; lia|]). lia.
  - vm_compute. reflexivity.
Qed.

(** Daily timestamps. *)
Example C09_example_time : exists w o0,
  let d := 86400000000000 in
  let ga := GArr (mkG DtiTime [0; d; 2*d; 3*d; 4*d]) in
  even_run (DInt 0) (PDelta (DInt 0)) 2 1 SExpanding (Some d) w o0 5 YNone ga 0 /\
  yields (fst (wf_split w 10 (XArr 5) YNone ga o0)) = [([0;1], [2]); ([0;1;2], [3]); ([0;1;2;3], [4])]%nat.
Proof.
  eexists; eexists; split.
  - constructor; try reflexivity; try (simpl; lia); try (simpl; congruence); try (vm_compute; congruence).
    intros i Hi. simpl in Hi. do 4 (destruct i as [|i]; [simpl; lia|]). lia.
  - vm_compute. reflexivity.
Qed.

(** * C10 *)
Theorem C10_walk_forward_train_before_test : forall e p tw xw st freq w o0 n y ga emb fuel o tr te,
  even_run e p tw xw st freq w o0 n y ga emb -> (n <= fuel)%nat ->
  In (tr, te) (yields (fst (wf_split w fuel (XArr n) y ga o))) ->
  tr <> [] /\ te <> [] /\
  forall i j, In i tr -> In j te -> (i < j)%nat /\ group_of n ga i + emb < group_of n ga j.
Proof.
  intros e p tw xw st freq w o0 n y ga emb fuel o tr te Hr Hfuel Hin.
  destruct (even_run_closed _ _ _ _ _ _ _ _ _ _ _ _ Hr) as [J [[HJ1 HJ2] HJ]].
  destruct Hr as [Hi Hnat Hemb Hu Hy Hlen Hn Hev Htw Hxw Hfit Hroom].
  set (u := unit_of freq) in *. set (l := group_values n ga) in *.
  assert (Hgrid : grid u l) by (intros i Hi2; specialize (Hev i Hi2); lia).
  assert (Hsort := grid_nondecr u l Hu Hgrid).
  assert (Hpres : forall k, 0 <= k -> group_of n ga 0 + k * u <= group_of n ga (n - 1) ->
            exists m, (m < n)%nat /\ group_of n ga m = group_of n ga 0 + k * u).
  { intros k Hk H. destruct (grid_complete u l Hu Hgrid (n - 1)%nat ltac:(lia) k Hk H) as [m [M1 M2]].
    exists m; split; [lia|exact M2]. }
  assert (Hemb0 : 0 <= emb).
  { unfold wf_init in Hi. apply bind_ok in Hi as [[de dp] [Hb _]].
    unfold basecv_init in Hb. destruct p as [p|]; [|discriminate].
    assert (0 <= dval e).
    { destruct e as [a|a]; destruct p as [b|b]; simpl in Hb;
      destruct (Z.ltb_spec a 0); try discriminate; (try (destruct (b <? 0); discriminate)); auto. }
    unfold embargo_is in Hemb. destruct freq as [u'|]; destruct e as [a|a]; simpl in *; try tauto; subst emb; auto.
    unfold u in Hu. nia. }
  assert (HJn : (J <= n)%nat).
  { unfold test_start in HJ2. fold u in HJ2. destruct HJ2 as [HJ2 _].
    (* values g0 + k u for k = 0..J are all attained, hence at most n of them *)
    assert (Hkn : forall m, (m < n)%nat -> group_of n ga m <= group_of n ga 0 + Z.of_nat m * u).
    { induction m; intros Hm; [lia|]. specialize (IHm ltac:(lia)).
      destruct (Hev m ltac:(lia)) as [E|E]; unfold group_of in IHm |- *; fold l in IHm |- *; nia. }
    specialize (Hkn (n - 1)%nat ltac:(lia)).
    assert (tw * u + Z.of_nat (J - 1) * (xw * u) <= Z.of_nat (n - 1) * u) by lia.
    assert (tw + Z.of_nat (J - 1) * xw <= Z.of_nat (n - 1)) by nia. nia. }
  rewrite (HJ fuel o) in Hin by lia. cbn [fst yields] in Hin.
  apply in_map_iff in Hin as [j [E Hj]]. injection E as <- <-. apply in_seq in Hj.
  assert (Hts : test_start freq tw xw n ga j <= group_of n ga (n - 1)).
  { destruct HJ2 as [HJ2 _]. unfold test_start in *. fold u in HJ2 |- *. 
    assert (Z.of_nat j <= Z.of_nat (J - 1)) by lia. nia. }
  split; [|split].
  - assert (Hex : exists m, (m < n)%nat /\ group_of n ga m = window_start st freq xw n ga j).
    { unfold window_start. fold u. destruct st; try (exists 0%nat; split; [lia|reflexivity]).
      replace (Z.of_nat j * (xw * u)) with ((Z.of_nat j * xw) * u) by lia. apply Hpres; [nia|].
      unfold test_start in Hts. fold u in Hts. nia. }
    destruct Hex as [m [M1 M2]].
    assert (Hin : In m (train_set st freq tw xw emb n ga j)).
    { unfold train_set. apply filter_In. rewrite in_seq. split; [lia|]. rewrite M2.
      unfold window_start, test_start. fold u. destruct st; nia. }
    destruct (train_set st freq tw xw emb n ga j); simpl in *; [tauto|congruence].
  - assert (Hex : exists m, (m < n)%nat /\ group_of n ga m = test_start freq tw xw n ga j).
    { unfold test_start in *. fold u in Hts |- *.
      replace (group_of n ga 0 + tw * u + Z.of_nat j * (xw * u)) with (group_of n ga 0 + (tw + Z.of_nat j * xw) * u) in * by lia.
      apply Hpres; [nia|lia]. }
    destruct Hex as [m [M1 M2]].
    assert (Hin : In m (test_set freq tw xw n ga j)).
    { unfold test_set. apply filter_In. rewrite in_seq. split; [lia|]. rewrite M2.
      unfold test_start. fold u. nia. }
    destruct (test_set freq tw xw n ga j); simpl in *; [tauto|congruence].
  - intros a b Ha Hb. unfold train_set in Ha. unfold test_set in Hb.
    apply filter_In in Ha as [Ha1 Ha2]. apply filter_In in Hb as [Hb1 Hb2]. apply in_seq in Ha1, Hb1.
    assert (Hlt : group_of n ga a + emb < group_of n ga b) by lia. split; auto.
    destruct (Nat.lt_ge_cases a b); auto. assert (group_of n ga b <= group_of n ga a) by (apply Hsort; lia). lia.
Qed.
Print Assumptions C10_walk_forward_train_before_test.

(** * C11 *)
Lemma sorted_app : forall l1 l2, StronglySorted lt l1 -> StronglySorted lt l2 ->
  (forall x y, In x l1 -> In y l2 -> (x < y)%nat) -> StronglySorted lt (l1 ++ l2).
Proof.
  induction l1 as [|a l1 IH]; simpl; intros l2 H1 H2 H; auto.
  apply StronglySorted_inv in H1 as [H1 H1']. constructor; auto.
  apply Forall_app; split; auto. apply Forall_forall; auto.
Qed.

Theorem C11_walk_forward_tests_cover : forall e p tw xw st freq w o0 n y ga emb fuel o,
  even_run e p tw xw st freq w o0 n y ga emb -> (n <= fuel)%nat ->
  concat (map snd (yields (fst (wf_split w fuel (XArr n) y ga o))))
  = filter (fun i => group_of n ga 0 + tw * unit_of freq <=? group_of n ga i) (seq 0 n).
Proof.
  intros e p tw xw st freq w o0 n y ga emb fuel o Hr Hfuel.
  destruct (even_run_closed _ _ _ _ _ _ _ _ _ _ _ _ Hr) as [J [[HJ1 HJ2] HJ]].
  destruct Hr as [Hi Hnat Hemb Hu Hy Hlen Hn Hev Htw Hxw Hfit Hroom].
  set (u := unit_of freq) in *. set (l := group_values n ga) in *.
  assert (Hgrid : grid u l) by (intros i Hi2; specialize (Hev i Hi2); lia).
  assert (Hsort := grid_nondecr u l Hu Hgrid).
  assert (HJn : (J <= n)%nat).
  { destruct HJ2 as [HJ2 _]. unfold test_start in HJ2. fold u in HJ2.
    assert (Hkn : forall m, (m < n)%nat -> group_of n ga m <= group_of n ga 0 + Z.of_nat m * u).
    { induction m; intros Hm; [lia|]. specialize (IHm ltac:(lia)).
      destruct (Hev m ltac:(lia)) as [E|E]; unfold group_of in IHm |- *; fold l in IHm |- *; nia. }
    specialize (Hkn (n - 1)%nat ltac:(lia)).
    assert (tw * u + Z.of_nat (J - 1) * (xw * u) <= Z.of_nat (n - 1) * u) by lia.
    assert (tw + Z.of_nat (J - 1) * xw <= Z.of_nat (n - 1)) by nia. nia. }
  rewrite (HJ fuel o) by lia. cbn [fst yields]. rewrite map_map. simpl map.
  assert (Hpre : forall m, concat (map (fun j => test_set freq tw xw n ga j) (seq 0 m))
     = filter (fun i => (test_start freq tw xw n ga 0 <=? group_of n ga i) && (group_of n ga i <? test_start freq tw xw n ga m)) (seq 0 n)).
  { induction m as [|m IH].
    - simpl. symmetry. apply sorted_ext; [apply filter_sorted, seq_sorted|constructor|].
      intros x; rewrite filter_In; simpl. split; [|tauto]. lia.
    - rewrite seq_S, map_app, concat_app. simpl. rewrite app_nil_r, IH.
      assert (Hmono : test_start freq tw xw n ga 0 <= test_start freq tw xw n ga m /\
                      test_start freq tw xw n ga m <= test_start freq tw xw n ga (S m)).
      { unfold test_start. fold u. split; nia. }
      apply sorted_ext.
      + apply sorted_app; [apply filter_sorted, seq_sorted|apply filter_sorted, seq_sorted|].
        intros x z Hx Hz. apply filter_In in Hx as [Hx1 Hx2]. apply filter_In in Hz as [Hz1 Hz2].
        apply in_seq in Hx1, Hz1. destruct (Nat.lt_ge_cases x z); auto.
        assert (group_of n ga z <= group_of n ga x) by (apply Hsort; lia). lia.
      + apply filter_sorted, seq_sorted.
      + intros x. unfold test_set. rewrite in_app_iff, !filter_In. 
        split; [intros [[H1 H2]|[H1 H2]]; (split; [auto|lia])|].
        intros [H1 H2]. destruct (Z_lt_le_dec (group_of n ga x) (test_start freq tw xw n ga m)); [left|right]; (split; [auto|lia]). }
  rewrite Hpre. apply filter_ext_in. intros i Hi2. apply in_seq in Hi2.
  assert (group_of n ga i <= group_of n ga (n - 1)) by (apply Hsort; lia).
  unfold test_start at 1. fold u. lia.
Qed.
Print Assumptions C11_walk_forward_tests_cover.

(** * C12 *)
(** Wednesday to Tuesday, weekdays only (1970-01-07 ... 1970-01-13), freq = 1 day, train 2, test 2, embargo 1:
    the second pair trains on Monday (sample 3) and tests on it. *)
Theorem C12_walk_forward_disjoint_refuted :
  exists w o0 g tr te, let d := 86400000000000 in
  wf_init (PDelta (DInt 1)) (PDelta (DInt 0)) 2 2 SExpanding (Some d) = Ok (w, o0) /\
  g = mkG DtiTime [6*d; 7*d; 8*d; 11*d; 12*d] /\
  ended (fst (wf_split w 10 (XArr 5) YNone (GArr g) o0)) = Done /\
  In (tr, te) (yields (fst (wf_split w 10 (XArr 5) YNone (GArr g) o0))) /\
  In 3%nat tr /\ In 3%nat te.
Proof.
  eexists; eexists; eexists. exists [0;1;2;3]%nat, [3;4]%nat. cbv zeta.
  split; [reflexivity|]. split; [reflexivity|]. split; [vm_compute; reflexivity|].
  split; [|simpl; tauto]. vm_compute. tauto.
Qed.
Print Assumptions C12_walk_forward_disjoint_refuted.

(** Integer groups with a gap: same effect without embargo. *)
Theorem C12_integer_gap_refuted :
  exists w o0 tr te,
  wf_init (PDelta (DInt 0)) (PDelta (DInt 0)) 2 2 SExpanding None = Ok (w, o0) /\
  In (tr, te) (yields (fst (wf_split w 10 (XArr 5) YNone (GArr (mkG ArrInt [0;1;2;10;11])) o0))) /\
  In 3%nat tr /\ In 3%nat te.
Proof.
  eexists; eexists. exists [0;1;2;3]%nat, [3;4]%nat. split; [reflexivity|]. split; [|simpl; tauto].
  vm_compute. tauto.
Qed.
Print Assumptions C12_integer_gap_refuted.

(** Exact condition for the first pair: train and test overlap iff no sample lies exactly at the nominal end
    first group + (train_window - 1) units of the training window. The embargo makes no difference. *)
Theorem C12_first_pair_overlaps_iff : forall e p tw xw st freq w o0 n y ga emb fuel o tr te rest,
  wf_init (PDelta e) p tw xw st freq = Ok (w, o0) -> natural_groups freq ga -> embargo_is freq e emb ->
  0 < unit_of freq -> 1 <= xw ->
  yields (fst (wf_split w fuel (XArr n) y ga o)) = (tr, te) :: rest ->
  ((exists i, In i tr /\ In i te) <->
   ~ (exists i, (i < n)%nat /\ group_of n ga i = group_of n ga 0 + (tw - 1) * unit_of freq)).
Proof.
  intros e p tw xw st freq w o0 n y ga emb fuel o tr te rest Hi Hnat Hemb Hu Hxw H.
  set (u := unit_of freq) in *.
  assert (Hw : dval (wf_train w) = tw * u /\ dval (wf_test w) = xw * u /\ dval (wf_unit w) = u).
  { unfold wf_init in Hi. apply bind_ok in Hi as [ep [Hb Hi]]. unfold u, wf_unit.
    destruct st; try discriminate; destruct freq; injection Hi as <- _; simpl; (split; [lia|]; split; lia). }
  destruct Hw as [W2 [W3 W4]].
  unfold wf_split in H. destruct (basecv_split (XArr n) y ga) as [tt0|] eqn:Eb; [|discriminate].
  simpl x_rows in H. set (g := match ga with GArr g => g | _ => arange_groups n end) in *.
  assert (Hgo : forall i, group_of n ga i = gat g i) by (intros; unfold group_of, gat, g; destruct ga; reflexivity).
  assert (Hs : nondecr (g_val g)).
  { unfold basecv_split in Eb. unfold g.
    destruct y; try discriminate; destruct ga as [|g'|]; try discriminate; try apply arange_nondecr;
    (destruct (sortedb (g_val g')) eqn:E; [apply sortedb_spec; auto|discriminate]). }
  destruct (wf_start w g) as [s|] eqn:Es; [|discriminate].
  unfold wf_start in Es. apply bind_ok in Es as [ts [Hts Es]]. apply getitem_ok in Hts as [Hn ->].
  apply bind_ok in Es as [a [Ha Es]]. apply plus_delta_ok in Ha. apply bind_ok in Es as [a2 [Ha2 Es]].
  apply plus_delta_ok in Ha2. rewrite dval_neg, W4 in Ha2. rewrite W2 in Ha.
  apply bind_ok in Es as [te0 [Hte Es]]. apply bind_ok in Es as [xs [Hxs Es]].
  apply bind_ok in Es as [b [Hb Es]]. apply plus_delta_ok in Hb.
  apply bind_ok in Es as [b2 [Hb2 Es]]. apply plus_delta_ok in Hb2. rewrite dval_neg, W4 in Hb2. rewrite W3 in Hb.
  apply bind_ok in Es as [xe [Hxe Es]]. injection Es as <-.
  apply getitem_ok in Hte as [Hl ->]. apply getitem_ok in Hxs as [Hr ->]. apply getitem_ok in Hxe as [Hxei ->].
  assert (Hlow : a2 <= gat g (ss_left g a2)).
  { destruct (Z_lt_le_dec (gat g (ss_left g a2)) a2) as [C|C]; auto. apply ss_left_spec in C; auto. lia. }
  assert (Hhigh : a2 < gat g (ss_right g a2)).
  { destruct (Z_le_gt_dec (gat g (ss_right g a2)) a2) as [C|C]; [|lia]. apply ss_right_spec in C; auto. lia. }
  assert (Hxle : gat g (ss_right g a2) <= gat g (ss_left g b2)).
  { destruct (Z_lt_le_dec (gat g (ss_left g b2)) b2) as [C|C]; [apply ss_left_spec in C; auto; lia|]. nia. }
  assert (Hlr : gat g (ss_left g a2) <= gat g (ss_right g a2)).
  { apply Hs; auto. destruct (Nat.le_gt_cases (ss_left g a2) (ss_right g a2)); auto.
    apply ss_left_spec in H0; auto. lia. }
  assert (Hpair : exists pr, wf_pair w (seq 0 n) g (mkWS (gat g 0) (gat g (ss_left g a2)) (gat g (ss_right g a2)) (gat g (ss_left g b2))) = Ok pr /\ pr = (tr, te)).
  { destruct fuel; cbn [wf_loop] in H; (destruct (get_last g); [|discriminate]); simpl ws_te in H;
    (destruct (_ <? _); [|discriminate]); (destruct (wf_pair w (seq 0 n) g _) as [pr|] eqn:Ep; [|discriminate]).
    - discriminate.
    - exists pr; split; auto. simpl ws_xe in H. destruct (_ >=? _); [injection H as <- _; auto|].
      destruct (wf_advance w g _); simpl in H; injection H as <- _; auto. }
  destruct Hpair as [pr [Hp ->]]. unfold wf_pair in Hp. simpl ws_ts in Hp; simpl ws_te in Hp; simpl ws_xs in Hp; simpl ws_xe in Hp.
  apply bind_ok in Hp as [tr0 [H1 Hp]]. apply mask_select_seq in H1 as [Hlen ->].
  apply bind_ok in Hp as [te1 [H1 Hp]]. apply mask_select_seq in H1 as [_ ->].
  set (TR := filter (fun i => (gat g i >=? gat g 0) && (gat g i <=? gat g (ss_left g a2))) (seq 0 n)) in *.
  set (TE := filter (fun i => (gat g i >=? gat g (ss_right g a2)) && (gat g i <=? gat g (ss_left g b2))) (seq 0 n)) in *.
  assert (InTR : forall i, In i TR <-> (i < n)%nat /\ gat g i <= gat g (ss_left g a2)).
  { intros i. unfold TR. rewrite filter_In, in_seq. split; [intros; split; lia|]. intros [A1 A2].
    assert (gat g 0 <= gat g i) by (apply Hs; lia). split; lia. }
  assert (InTE : forall i, In i TE <-> (i < n)%nat /\ gat g (ss_right g a2) <= gat g i <= gat g (ss_left g b2)).
  { intros i. unfold TE. rewrite filter_In, in_seq. split; intros; split; lia. }
  assert (Hsub : te = TE /\ (forall i, In i tr -> In i TR) /\ (forall i, In i TR -> In i TE -> In i tr)).
  { destruct (delta_pos (wf_embargo w)).
    - apply bind_ok in Hp as [tr1 [H1 Hp]]. injection Hp as <- <-. split; [auto|].
      apply embargo_ok in H1 as [_ [_ [_ [_ [_ [E4 _]]]]]]. destruct E4 as [mn [[j [J1 J2]] [J3 J4]]].
      { intros E. assert (In (ss_right g a2) TE) by (apply InTE; lia). rewrite E in *; simpl in *; tauto. }
      split.
      + intros i Hin. apply J4 in Hin. tauto.
      + intros i I1 I2. apply J4. split; auto. specialize (J3 i I2). lia.
    - injection Hp as <- <-. auto. }
  destruct Hsub as [-> [S1 S2]]. rewrite !Hgo.
  assert (Ea2 : a2 = gat g 0 + (tw - 1) * u) by lia. rewrite <- Ea2.
  split.
  - intros [i [I1 I2]] [k [K1 K2]]. rewrite Hgo in K2. apply S1, InTR in I1. apply InTE in I2.
    assert (gat g (ss_left g a2) <= gat g k).
    { apply Hs; [|lia]. destruct (Nat.le_gt_cases (ss_left g a2) k) as [C|C]; auto. apply ss_left_spec in C; [lia|auto|lia]. }
    lia.
  - intros Hno. 
    assert (Hne : forall i, (i < n)%nat -> gat g i <> a2) by (intros i I1 I2; apply Hno; exists i; rewrite Hgo; auto).
    assert (E : ss_left g a2 = ss_right g a2).
    { unfold ss_left, ss_right. f_equal. apply filter_ext_in. intros v Hv. apply (In_nth _ _ 0) in Hv as [k [K1 K2]].
      specialize (Hne k ltac:(lia)). unfold gat in Hne. lia. }
    exists (ss_right g a2). assert (In (ss_right g a2) TE) by (apply InTE; lia). split; auto.
    apply S2; auto. apply InTR. split; [lia|]. rewrite E. lia.
Qed.
Print Assumptions C12_first_pair_overlaps_iff.

Example C12_example : exists w o0,
  wf_init (PDelta (DInt 1)) (PDelta (DInt 0)) 3 2 SExpanding None = Ok (w, o0) /\
  yields (fst (wf_split w 10 (XArr 5) YNone (GArr (mkG ArrInt [0;1;4;5;6])) o0)) = [([0;1;2], [2;3])]%nat.
Proof. eexists; eexists. split; [reflexivity|]. vm_compute. reflexivity. Qed.

(** * C13 *)
(** One run of split with its arguments, driven for at most r_fuel pairs. *)
Record run := mkRun { r_fuel : nat; r_x : xarg; r_y : yarg; r_g : garg }.

(** Drive a list of runs on one object; returns the generators and the final object. *)
Fixpoint history (w : wforward) (rs : list run) (o : wfobj) : list gen * wfobj :=
  match rs with
  | [] => ([], o)
  | r :: rs' =>
      let q := wf_split w (r_fuel r) (r_x r) (r_y r) (r_g r) o in
      let h := history w rs' (snd q) in
      (fst q :: fst h, snd h)
  end.

Lemma wf_loop_count : forall w ix g fuel s o,
  let r := wf_loop w ix g fuel s o in
  wo_n (snd r) = wo_n o + Z.of_nat (length (yields (fst r))) /\
  (wo_fin o = true -> wo_fin (snd r) = true).
Proof.
  induction fuel as [|fuel IH]; intros s o; cbv zeta; cbn [wf_loop];
    destruct (get_last g) as [l|]; simpl; try (split; [lia|auto]);
    destruct (ws_te s <? l); simpl; try (split; [lia|auto]);
    destruct (wf_pair w ix g s) as [pr|]; simpl; try (split; [lia|auto]).
  destruct (ws_xe s >=? l); simpl; [split; [lia|auto]|].
  destruct (wf_advance w g s) as [s'|]; simpl; [|split; [lia|auto]].
  specialize (IH s' (mkWO (wo_n o + 1) (wo_fin o))). cbv zeta in IH. destruct IH as [I1 I2].
  simpl in I1, I2. split; auto. rewrite I1. lia.
Qed.

Lemma wf_split_count : forall w fuel X y ga o,
  let r := wf_split w fuel X y ga o in
  wo_n (snd r) = wo_n o + Z.of_nat (length (yields (fst r))) /\ (wo_fin o = true -> wo_fin (snd r) = true).
Proof.
  intros. unfold r, wf_split. destruct (basecv_split X y ga); simpl; [|split; [lia|auto]].
  destruct (wf_start w _); simpl; [|split; [lia|auto]]. apply wf_loop_count.
Qed.

(** Some yielded test set contains the last of n samples. *)
Definition tests_last (n : nat) (q : gen) : Prop := exists tr te, In (tr, te) (yields q) /\ In (n - 1)%nat te.

Lemma wf_loop_fin : forall w n g, (0 < n)%nat -> nondecr (g_val g) ->
  forall fuel s o, (forall l, get_last g = Ok l -> ws_xs s <= l) ->
  let r := wf_loop w (seq 0 n) g fuel s o in
  wo_fin (snd r) = true <-> wo_fin o = true \/ tests_last n (fst r).
Proof.
  intros w n g Hn Hs.
  assert (Hnil : forall o e, wo_fin o = true <-> wo_fin o = true \/ tests_last n (mkGen [] e)).
  { intros o e; split; auto. intros [H|[tr [te [[] _]]]]; auto. }
  assert (Hlast : forall l, get_last g = Ok l -> length (g_val g) = n -> gat g (n - 1) = l).
  { intros l Hl E. unfold get_last in Hl. destruct (is_series (g_kind g)) eqn:Es; [discriminate|].
    assert (G := get_last_spec g Es ltac:(lia)). unfold get_last in G. rewrite Es, Hl, E in G. congruence. }
  assert (Hpr : forall s pr l, wf_pair w (seq 0 n) g s = Ok pr -> get_last g = Ok l -> ws_xs s <= l ->
            (In (n - 1)%nat (snd pr) <-> ws_xe s >= l)).
  { intros s pr l Hp Hl Hx. unfold wf_pair in Hp.
    apply bind_ok in Hp as [tr0 [H1 Hp]]. apply mask_select_seq in H1 as [Hlen ->].
    apply bind_ok in Hp as [te1 [H1 Hp]]. apply mask_select_seq in H1 as [_ ->].
    assert (E : snd pr = filter (fun i => (gat g i >=? ws_xs s) && (gat g i <=? ws_xe s)) (seq 0 n)).
    { destruct (delta_pos (wf_embargo w)); [apply bind_ok in Hp as [tr1 [_ Hp]]|]; injection Hp as <-; reflexivity. }
    rewrite E, filter_In, in_seq, (Hlast l Hl Hlen). split; [lia|]. intros; split; lia. }
  induction fuel as [|fuel IH]; intros s o Hx; cbv zeta; cbn [wf_loop];
    (destruct (get_last g) as [l|] eqn:Hl; [|apply Hnil]);
    (destruct (ws_te s <? l); [|apply Hnil]);
    (destruct (wf_pair w (seq 0 n) g s) as [pr|] eqn:Ep; [|apply Hnil]); [apply Hnil|].
  specialize (Hpr s pr l Ep eq_refl (Hx l eq_refl)).
  destruct (ws_xe s >=? l) eqn:Exe.
  - cbn [snd wo_fin fst]. split; auto. intros _. right. exists (fst pr), (snd pr). split; [left; destruct pr; auto|].
    apply Hpr. lia.
  - assert (Hnot : ~ In (n - 1)%nat (snd pr)) by (rewrite Hpr; lia).
    destruct (wf_advance w g s) as [s'|] eqn:Ea.
    + cbn [snd fst].
      assert (Hx' : forall l0, Ok l = Ok l0 -> ws_xs s' <= l0).
      { intros l0 E. injection E as <-. unfold wf_advance in Ea. apply bind_ok in Ea as [ts [_ Ea]]. apply bind_ok in Ea as [a [_ Ea]].
        apply bind_ok in Ea as [te [_ Ea]]. apply bind_ok in Ea as [b [_ Ea]]. apply bind_ok in Ea as [xs [Hxs Ea]].
        apply bind_ok in Ea as [c [_ Ea]]. apply bind_ok in Ea as [l' [_ Ea]]. apply bind_ok in Ea as [xe [_ Ea]].
        injection Ea as <-. simpl. apply getitem_ok in Hxs as [Hi ->].
        assert (Hser : is_series (g_kind g) = false) by (unfold get_last in Hl; destruct (is_series (g_kind g)); congruence).
        rewrite (get_last_spec g Hser ltac:(lia)) in Hl. injection Hl as <-. apply Hs; lia. }
      specialize (IH s' (mkWO (wo_n o + 1) (wo_fin o)) Hx'). cbv zeta in IH. simpl wo_fin in IH at 2.
      rewrite IH. split; (intros [H|[tr [te [H1 H2]]]]; [left; auto|right; exists tr, te]).
      * split; [right; auto|auto].
      * destruct H1 as [->|H1]; [simpl in Hnot; tauto|]. auto.
    + cbn [snd fst wo_fin]. split; [auto|]. intros [H|[tr [te [[->|[]] H2]]]]; auto; simpl in Hnot; tauto.
Qed.

Lemma wf_split_fin : forall w fuel X y ga o, (0 < x_rows X)%nat ->
  let r := wf_split w fuel X y ga o in
  wo_fin (snd r) = true <-> wo_fin o = true \/ tests_last (x_rows X) (fst r).
Proof.
  intros w fuel X y ga o Hn. cbv zeta. unfold wf_split.
  assert (Hnil : forall e, wo_fin o = true <-> wo_fin o = true \/ tests_last (x_rows X) (mkGen [] e)).
  { intros e; split; auto. intros [H|[tr [te [[] _]]]]; auto. }
  destruct (basecv_split X y ga) as [tt0|] eqn:Eb; [|apply Hnil].
  set (g := match ga with GArr g => g | _ => arange_groups (x_rows X) end).
  assert (Hs : nondecr (g_val g)).
  { unfold basecv_split in Eb. destruct X; [|discriminate]. unfold g.
    destruct y; try discriminate; destruct ga as [|g'|]; try discriminate; try apply arange_nondecr;
    (destruct (sortedb (g_val g')) eqn:E; [apply sortedb_spec; auto|discriminate]). }
  destruct (wf_start w g) as [s|] eqn:Es; [|apply Hnil].
  apply wf_loop_fin; auto.
  intros l Hl. unfold wf_start in Es. apply bind_ok in Es as [ts [Hts Es]]. apply bind_ok in Es as [a [_ Es]].
  apply bind_ok in Es as [a2 [_ Es]]. apply bind_ok in Es as [te [_ Es]]. apply bind_ok in Es as [xs [Hxs Es]].
  apply bind_ok in Es as [b [_ Es]]. apply bind_ok in Es as [b2 [_ Es]]. apply bind_ok in Es as [xe [_ Es]].
  injection Es as <-. simpl. apply getitem_ok in Hxs as [Hi ->].
  assert (Hser : is_series (g_kind g) = false) by (unfold get_last in Hl; destruct (is_series (g_kind g)); congruence).
  rewrite (get_last_spec g Hser ltac:(lia)) in Hl. injection Hl as <-. apply Hs; lia.
Qed.

Definition total_pairs (gs : list gen) : Z := fold_right (fun q acc => Z.of_nat (length (yields q)) + acc) 0 gs.

(** Some run of the history tested the last sample of its X. *)
Definition some_run_reached_end (rs : list run) (gs : list gen) : Prop :=
  exists k r q, nth_error rs k = Some r /\ nth_error gs k = Some q /\ tests_last (x_rows (r_x r)) q.

Lemma history_spec : forall w rs o, Forall (fun r => (0 < x_rows (r_x r))%nat) rs ->
  wo_n (snd (history w rs o)) = wo_n o + total_pairs (fst (history w rs o)) /\
  (wo_fin (snd (history w rs o)) = true <-> wo_fin o = true \/ some_run_reached_end rs (fst (history w rs o))).
Proof.
  induction rs as [|r rs IH]; intros o Hne.
  - simpl. split; [lia|]. split; auto. intros [H|[k [r [q [H _]]]]]; auto. destruct k; discriminate.
  - cbn [history fst snd]. inversion Hne as [|? ? Hr Hrs]; subst.
    destruct (IH (snd (wf_split w (r_fuel r) (r_x r) (r_y r) (r_g r) o)) Hrs) as [I1 I2].
    destruct (wf_split_count w (r_fuel r) (r_x r) (r_y r) (r_g r) o) as [J1 _].
    assert (J2 := wf_split_fin w (r_fuel r) (r_x r) (r_y r) (r_g r) o Hr). cbv zeta in J2.
    split.
    + rewrite I1, J1. cbn [total_pairs fold_right]. unfold total_pairs. lia.
    + rewrite I2, J2. split.
      * intros [[H|H]|[k [r' [q [H1 [H2 H3]]]]]]; [auto| |].
        { right. exists 0%nat, r, (fst (wf_split w (r_fuel r) (r_x r) (r_y r) (r_g r) o)). simpl; auto. }
        { right. exists (S k), r', q. simpl; auto. }
      * intros [H|[k [r' [q [H1 [H2 H3]]]]]]; [auto|]. destruct k as [|k]; simpl in H1, H2.
        { injection H1 as <-. injection H2 as <-. auto. }
        { right. exists k, r', q; auto. }
Qed.

Theorem C13_get_n_splits_accumulates : forall e p tw xw st freq w o0 rs,
  wf_init e p tw xw st freq = Ok (w, o0) -> Forall (fun r => (0 < x_rows (r_x r))%nat) rs ->
  let h := history w rs o0 in
  (some_run_reached_end rs (fst h) -> wf_get_n_splits (snd h) = total_pairs (fst h)) /\
  (~ some_run_reached_end rs (fst h) -> wf_get_n_splits (snd h) = 0).
Proof.
  intros e p tw xw st freq w o0 rs Hi Hne.
  assert (Ho : o0 = mkWO 0 false).
  { unfold wf_init in Hi. apply bind_ok in Hi as [ep [_ Hi]].
    destruct st; try discriminate; destruct freq; injection Hi as _ <-; reflexivity. }
  subst o0. cbv zeta. destruct (history_spec w rs (mkWO 0 false) Hne) as [H1 H2].
  simpl in H1, H2. unfold wf_get_n_splits. split.
  - intros H. rewrite (proj2 H2 (or_intror H)). lia.
  - intros H. destruct (wo_fin (snd (history w rs (mkWO 0 false)))); auto.
    destruct (proj1 H2 eq_refl); [discriminate|tauto].
Qed.
Print Assumptions C13_get_n_splits_accumulates.

(** On evenly spaced groups m >= 1 complete runs of J pairs each make get_n_splits report m*J. *)
Theorem C13_repeated_runs : forall e p tw xw st freq w o0 n y ga emb m,
  even_run e p tw xw st freq w o0 n y ga emb -> (1 <= m)%nat ->
  exists J, (1 <= J)%nat /\
  Forall (fun q => length (yields q) = J /\ ended q = Done) (fst (history w (repeat (mkRun n (XArr n) y ga) m) o0)) /\
  wf_get_n_splits (snd (history w (repeat (mkRun n (XArr n) y ga) m) o0)) = Z.of_nat m * Z.of_nat J.
Proof.
  intros e p tw xw st freq w o0 n y ga emb m Hr Hm.
  assert (Hr2 := Hr).
  destruct (even_run_closed _ _ _ _ _ _ _ _ _ _ _ _ Hr) as [J [[HJ1 HJ2] HJ]].
  assert (HJn : (J <= n)%nat).
  { destruct Hr as [Hi Hnat Hemb Hu Hy Hlen Hn Hev Htw Hxw Hfit Hroom]. set (u := unit_of freq) in *.
    destruct HJ2 as [HJ2 _]. unfold test_start in HJ2. fold u in HJ2.
    assert (Hkn : forall m, (m < n)%nat -> group_of n ga m <= group_of n ga 0 + Z.of_nat m * u).
    { clear m Hm. induction m; intros Hm; [lia|]. specialize (IHm ltac:(lia)).
      destruct (Hev m ltac:(lia)) as [E|E]; unfold group_of in *; nia. }
    specialize (Hkn (n - 1)%nat ltac:(lia)).
    assert (tw * u + Z.of_nat (J - 1) * (xw * u) <= Z.of_nat (n - 1) * u) by lia.
    assert (tw + Z.of_nat (J - 1) * xw <= Z.of_nat (n - 1)) by nia. nia. }
  assert (Ho : wo_n o0 = 0).
  { destruct Hr as [Hi _ _ _ _ _ _ _ _ _ _ _]. unfold wf_init in Hi. apply bind_ok in Hi as [ep [_ Hi]].
    destruct st; try discriminate; destruct freq; injection Hi as _ <-; reflexivity. }
  exists J. split; auto.
  assert (G : forall m o, Forall (fun q => length (yields q) = J /\ ended q = Done) (fst (history w (repeat (mkRun n (XArr n) y ga) m) o)) /\
    wo_n (snd (history w (repeat (mkRun n (XArr n) y ga) m) o)) = wo_n o + Z.of_nat m * Z.of_nat J /\
    (wo_fin o = true \/ (1 <= m)%nat -> wo_fin (snd (history w (repeat (mkRun n (XArr n) y ga) m) o)) = true)).
  { clear Hm m. induction m as [|m IH]; intros o.
    - simpl. split; [constructor|]. split; [lia|]. intros [H|H]; [auto|lia].
    - cbn [repeat history r_fuel r_x r_y r_g]. rewrite (HJ n o HJn). cbn [fst snd].
      destruct (IH (bump o J)) as [I1 [I2 I3]]. split; [|split].
      + constructor; auto. simpl. rewrite map_length, seq_length. auto.
      + rewrite I2. unfold bump; cbn [wo_n]. nia.
      + intros _. apply I3. left; reflexivity. }
  destruct (G m o0) as [G1 [G2 G3]]. split; auto. unfold wf_get_n_splits. rewrite G3 by auto. lia.
Qed.
Print Assumptions C13_repeated_runs.

(** So the reported number is not the number of splits of the last run. *)
Theorem C13_get_n_splits_is_last_run_refuted :
  exists w o0 r, wf_init (PDelta (DInt 0)) (PDelta (DInt 0)) 2 1 SExpanding None = Ok (w, o0) /\
  r = mkRun 10 (XArr 4) YNone GNone /\
  (let h := history w [r; r] o0 in
   map (fun q => length (yields q)) (fst h) = [2; 2]%nat /\ wf_get_n_splits (snd h) = 4).
Proof. eexists; eexists; eexists. split; [reflexivity|]. split; [reflexivity|]. vm_compute. auto. Qed.
Print Assumptions C13_get_n_splits_is_last_run_refuted.

(** * C14 *)
Definition above (g : groups) (v : Z) : nat := length (filter (Z.ltb v) (g_val g)).

Lemma above_lt : forall g v v' i, v < v' -> (i < length (g_val g))%nat -> gat g i = v' -> (above g v' < above g v)%nat.
Proof.
  intros g v v' i Hv Hi E. unfold above, gat in *. revert i Hi E.
  assert (Hle : forall l, (length (filter (Z.ltb v') l) <= length (filter (Z.ltb v) l))%nat).
  { induction l as [|a l IH]; simpl; auto. destruct (Z.ltb_spec v' a); destruct (Z.ltb_spec v a); simpl; lia. }
  induction (g_val g) as [|a l IH]; simpl; intros i Hi E; [lia|].
  destruct i.
  - subst a. destruct (Z.ltb_spec v' v'); [lia|]. destruct (Z.ltb_spec v v'); [|lia]. simpl. specialize (Hle l). lia.
  - specialize (IH i ltac:(lia) E). destruct (Z.ltb_spec v' a); destruct (Z.ltb_spec v a); simpl; lia.
Qed.

Lemma wf_loop_terminates : forall w ix g, nondecr (g_val g) -> 0 < dval (wf_test w) ->
  forall fuel s o, (above g (ws_te s) <= fuel)%nat ->
  let r := wf_loop w ix g fuel s o in
  ended (fst r) <> Running /\ (length (yields (fst r)) <= above g (ws_te s))%nat.
Proof.
  intros w ix g Hs HT. induction fuel as [|fuel IH]; intros s o Hf; cbv zeta; cbn [wf_loop];
    (destruct (get_last g) as [l|] eqn:El; simpl; [|split; [discriminate|lia]]);
    (destruct (Z.ltb_spec (ws_te s) l); simpl; [|split; [discriminate|lia]]).
  - exfalso. unfold get_last in El. destruct (is_series (g_kind g)); [discriminate|].
    destruct (rev (g_val g)) as [|x t] eqn:E; [discriminate|]. injection El as ->.
    assert (Hin : In l (g_val g)) by (rewrite in_rev, E; simpl; auto).
    assert (Hin2 : In l (filter (Z.ltb (ws_te s)) (g_val g))) by (apply filter_In; split; auto; lia).
    unfold above in Hf. destruct (filter _ _); simpl in *; [tauto|lia].
  - assert (Hpos : (1 <= above g (ws_te s))%nat).
    { unfold get_last in El. destruct (is_series (g_kind g)); [discriminate|].
      destruct (rev (g_val g)) as [|x t] eqn:E; [discriminate|]. injection El as ->.
      assert (Hin : In l (g_val g)) by (rewrite in_rev, E; simpl; auto).
      assert (Hin2 : In l (filter (Z.ltb (ws_te s)) (g_val g))) by (apply filter_In; split; auto; lia).
      unfold above. destruct (filter _ _); simpl in *; [tauto|lia]. }
    destruct (wf_pair w ix g s) as [pr|]; simpl; [|split; [discriminate|lia]].
    destruct (ws_xe s >=? l); simpl; [split; [discriminate|lia]|].
    destruct (wf_advance w g s) as [s'|] eqn:Ea; simpl; [|split; [discriminate|lia]].
    assert (Hlt : (above g (ws_te s') < above g (ws_te s))%nat).
    { unfold wf_advance in Ea. apply bind_ok in Ea as [ts [_ Ea]]. apply bind_ok in Ea as [a [Ha Ea]].
      apply plus_delta_ok in Ha. apply bind_ok in Ea as [te [Hte Ea]].
      apply bind_ok in Ea as [b [_ Ea]]. apply bind_ok in Ea as [xs [_ Ea]]. apply bind_ok in Ea as [c [_ Ea]].
      apply bind_ok in Ea as [l' [_ Ea]]. apply bind_ok in Ea as [xe [_ Ea]]. injection Ea as <-. simpl.
      apply getitem_ok in Hte as [Hi ->]. apply (above_lt g _ _ (ss_left g a)); auto.
      destruct (Z_lt_le_dec (gat g (ss_left g a)) a) as [H1|H1]; [|lia].
      apply ss_left_spec in H1; auto. lia. }
    specialize (IH s' (mkWO (wo_n o + 1) (wo_fin o)) ltac:(lia)). cbv zeta in IH. destruct IH as [I1 I2].
    split; auto. lia.
Qed.

(** For every input, a positive test_window makes split end, after at most as many pairs as there are groups. *)
Theorem C14_walk_forward_terminates : forall e p tw xw st freq w o0 X y ga o fuel,
  wf_init e p tw xw st freq = Ok (w, o0) -> 0 < unit_of freq -> 1 <= xw ->
  (length (group_values (x_rows X) ga) <= fuel)%nat ->
  let r := wf_split w fuel X y ga o in
  ended (fst r) <> Running /\ (length (yields (fst r)) <= length (group_values (x_rows X) ga))%nat.
Proof.
  intros e p tw xw st freq w o0 X y ga o fuel Hi Hu Hxw Hf. cbv zeta. unfold wf_split.
  destruct (basecv_split X y ga) eqn:Eb; simpl; [|split; [discriminate|lia]].
  set (g := match ga with GArr g => g | _ => arange_groups (x_rows X) end).
  assert (Hgv : group_values (x_rows X) ga = g_val g) by (unfold g; destruct ga; reflexivity).
  destruct (wf_start w g) as [s|]; simpl; [|split; [discriminate|lia]].
  assert (Hs : nondecr (g_val g)).
  { unfold basecv_split in Eb. destruct X; [|discriminate]. unfold g.
    destruct y; try discriminate; destruct ga as [|g'|]; try discriminate; try apply arange_nondecr;
    (destruct (sortedb (g_val g')) eqn:E; [apply sortedb_spec; auto|discriminate]). }
  assert (HT : 0 < dval (wf_test w)).
  { unfold wf_init in Hi. apply bind_ok in Hi as [ep [_ Hi]].
    destruct st; try discriminate; destruct freq; injection Hi as <- _; simpl in *; nia. }
  rewrite Hgv in *.
  assert (Hab : (above g (ws_te s) <= length (g_val g))%nat) by apply filter_len_le.
  destruct (wf_loop_terminates w (seq 0 (x_rows X)) g Hs HT fuel s o ltac:(lia)) as [H1 H2].
  split; auto. lia.
Qed.
Print Assumptions C14_walk_forward_terminates.

(** With the default test_window = 0 (no embargo, no groups, 1 <= train_window < n) the generator never ends: it
    yields ([0..train_window-1], []) as often as one asks. *)
Theorem C14_default_test_window_diverges : forall p tw st w o0 n y o fuel,
  wf_init (PDelta (DInt 0)) p tw 0 st None = Ok (w, o0) -> y <> YBad ->
  1 <= tw < Z.of_nat n ->
  fst (wf_split w fuel (XArr n) y GNone o) = mkGen (repeat (seq 0 (Z.to_nat tw), []) fuel) Running.
Proof.
  intros p tw st w o0 n y o fuel Hi Hy Htw.
  assert (Hw : w = mkWF (DInt 0) (DInt tw) (DInt 0) (match st with SRolling => Rolling | _ => Expanding end) None).
  { unfold wf_init in Hi. apply bind_ok in Hi as [ep [Hb Hi]].
    unfold basecv_init in Hb. destruct p as [p|]; [|discriminate]. simpl in Hb.
    assert (fst ep = DInt 0) by (destruct p as [b|b]; destruct (b <? 0); try discriminate; injection Hb as <-; reflexivity).
    destruct st; try discriminate; injection Hi as <- _; rewrite H; reflexivity. }
  set (g := arange_groups n).
  assert (Hlen : length (g_val g) = n) by apply arange_length.
  assert (Hs : nondecr (g_val g)) by apply arange_nondecr.
  assert (Hpres : forall v, 0 <= v < Z.of_nat n -> getitem g (ss_left g v) = Ok v).
  { intros v Hv. apply (get_ss_left_present _ _ (Z.to_nat v)); auto; [lia|]. unfold g. rewrite gat_arange by lia. lia. }
  assert (HL : get_last g = Ok (Z.of_nat (n - 1))).
  { rewrite get_last_spec by (try reflexivity; lia). rewrite Hlen. unfold g. rewrite gat_arange by lia. reflexivity. }
  assert (Hst : wf_start w g = Ok (mkWS 0 (tw - 1) tw (tw - 1))).
  { rewrite Hw. unfold wf_start. rewrite getitem_in by lia. unfold g at 1; rewrite gat_arange by lia. fold g.
    cbn [bind wf_train wf_test wf_unit wf_freq neg_delta]. unfold plus_delta. change (is_time (g_kind g)) with false. cbn [bind].
    change (Z.of_nat 0) with 0. replace (0 + tw + - (1)) with (tw - 1) by lia.
    rewrite Hpres by lia. cbn [bind].
    assert (Hr : getitem g (ss_right g (tw - 1)) = Ok tw).
    { destruct (get_ss_right g (tw - 1) Hs) as [i [Ei [Hi2 [H1 H2]]]].
      { exists (Z.to_nat tw). split; [lia|]. unfold g; rewrite gat_arange by lia. lia. }
      rewrite Ei. f_equal. specialize (H2 (Z.to_nat tw) ltac:(lia)).
      assert (G1 : gat g i = Z.of_nat i) by (apply gat_arange; lia).
      assert (G2 : gat g (Z.to_nat tw) = Z.of_nat (Z.to_nat tw)) by (apply gat_arange; lia).
      rewrite G1, G2 in *. lia. }
    rewrite Hr. cbn [bind]. replace (tw + 0 + - (1)) with (tw - 1) by lia. rewrite Hpres by lia. reflexivity. }
  assert (Hpair : wf_pair w (seq 0 n) g (mkWS 0 (tw - 1) tw (tw - 1)) = Ok (seq 0 (Z.to_nat tw), [])).
  { unfold wf_pair. rewrite Hw. simpl ws_ts; simpl ws_te; simpl ws_xs; simpl ws_xe. simpl wf_embargo.
    rewrite (proj2 (mask_select_seq n g _ _) (conj Hlen eq_refl)). cbn [bind].
    rewrite (proj2 (mask_select_seq n g _ _) (conj Hlen eq_refl)). cbn [bind delta_pos]. change (0 >? 0) with false. cbv iota.
    do 2 f_equal.
    - apply sorted_ext; [apply filter_sorted, seq_sorted|apply seq_sorted|].
      intros x. rewrite filter_In, !in_seq. split.
      + intros [H1 H2]. unfold g in H2; rewrite gat_arange in H2 by lia. lia.
      + intros H1. split; [lia|]. unfold g; rewrite gat_arange by lia. lia.
    - apply sorted_ext; [apply filter_sorted, seq_sorted|constructor|].
      intros x. rewrite filter_In; simpl. split; [|tauto]. lia. }
  assert (Hadv : wf_advance w g (mkWS 0 (tw - 1) tw (tw - 1)) = Ok (mkWS 0 (tw - 1) tw (tw - 1))).
  { rewrite Hw. unfold wf_advance. simpl ws_ts; simpl ws_te; simpl ws_xs; simpl ws_xe. cbn [wf_type wf_test].
    unfold plus_delta. change (is_time (g_kind g)) with false. cbn [bind].
    assert (E : match (match st with SRolling => Rolling | _ => Expanding end) with Expanding => Ok 0 | Rolling => Ok (0 + 0) end = Ok 0)
      by (destruct st; reflexivity).
    rewrite E. cbn [bind]. rewrite !Z.add_0_r. rewrite !Hpres by lia. cbn [bind]. rewrite HL. cbn [bind].
    rewrite Hpres by lia. cbn [bind]. rewrite Z.min_l by lia. reflexivity. }
  unfold wf_split. replace (basecv_split (XArr n) y GNone) with (Ok tt : res unit) by (simpl; destruct y; congruence).
  simpl x_rows. fold g. rewrite Hst. revert o.
  induction fuel as [|fuel IH]; intros o; cbn [wf_loop]; rewrite HL; simpl ws_te;
    (destruct (Z.ltb_spec (tw - 1) (Z.of_nat (n - 1))); [|lia]); rewrite Hpair; [reflexivity|].
  simpl ws_xe. destruct (tw - 1 >=? Z.of_nat (n - 1)) eqn:E; [lia|]. rewrite Hadv.
  cbn [fst]. rewrite IH. reflexivity.
Qed.
Print Assumptions C14_default_test_window_diverges.

Example C14_example : exists w o0, wf_init (PDelta (DInt 0)) (PDelta (DInt 0)) 3 0 SExpanding None = Ok (w, o0) /\
  fst (wf_split w 2 (XArr 5) YNone GNone o0) = mkGen [([0;1;2], []); ([0;1;2], [])]%nat Running.
Proof. eexists; eexists. split; [reflexivity|]. vm_compute. reflexivity. Qed.

(** * C15 *)
Theorem C15_default_train_window_leaks : forall e p tw xw st w o0 n y ga o fuel,
  wf_init (PDelta (DInt e)) p tw xw st None = Ok (w, o0) -> tw <= 0 ->
  numpy_groups ga -> ga <> GBad ->
  forall tr te rest, yields (fst (wf_split w fuel (XArr n) y ga o)) = (tr, te) :: rest ->
  In 0%nat tr /\ In 0%nat te.
Proof.
  intros e p tw xw st w o0 n y ga o fuel Hi Htw Hnp Hga tr te rest H.
  assert (Hw : 0 <= e /\ wf_embargo w = DInt e /\ wf_train w = DInt tw /\ wf_test w = DInt xw /\ wf_freq w = None).
  { unfold wf_init in Hi. apply bind_ok in Hi as [ep [Hb Hi]].
    unfold basecv_init in Hb. destruct p as [p|]; [|discriminate]. simpl in Hb.
    destruct (Z.ltb_spec e 0); [discriminate|].
    assert (fst ep = DInt e) by (destruct p as [b|b]; destruct (b <? 0); try discriminate; injection Hb as <-; reflexivity).
    destruct st; try discriminate; injection Hi as <- _; rewrite H1; simpl; auto. }
  destruct Hw as [He [W1 [W2 [W3 W4]]]].
  unfold wf_split in H. destruct (basecv_split (XArr n) y ga) as [tt0|] eqn:Eb; [|discriminate].
  simpl x_rows in H. set (g := match ga with GArr g => g | _ => arange_groups n end) in *.
  assert (Hk : g_kind g = ArrInt) by (unfold g; destruct ga as [|g'|]; simpl in Hnp; auto; congruence).
  assert (Hs : nondecr (g_val g)).
  { unfold basecv_split in Eb. unfold g.
    destruct y; try discriminate; destruct ga as [|g'|]; try discriminate; try apply arange_nondecr;
    (destruct (sortedb (g_val g')) eqn:E; [apply sortedb_spec; auto|discriminate]). }
  destruct (wf_start w g) as [s|] eqn:Es; [|discriminate].
  (* initial boundaries *)
  unfold wf_start in Es. apply bind_ok in Es as [ts [Hts Es]]. apply getitem_ok in Hts as [Hn ->].
  apply bind_ok in Es as [a [Ha Es]]. apply plus_delta_ok in Ha. apply bind_ok in Es as [a2 [Ha2 Es]].
  apply plus_delta_ok in Ha2. rewrite dval_neg in Ha2. unfold wf_unit in Ha2. rewrite W4 in Ha2. rewrite W2 in Ha.
  simpl in Ha, Ha2.
  apply bind_ok in Es as [te0 [Hte Es]]. apply bind_ok in Es as [xs [Hxs Es]].
  apply bind_ok in Es as [b [Hb Es]]. apply bind_ok in Es as [b2 [Hb2 Es]]. apply bind_ok in Es as [xe [Hxe Es]].
  injection Es as <-.
  assert (Hz : ss_left g a2 = 0%nat).
  { destruct (ss_left g a2) eqn:E; auto.
    assert (Hlt : (0 < ss_left g a2)%nat) by lia. apply ss_left_spec in Hlt; auto. lia. }
  assert (Hz2 : ss_right g a2 = 0%nat).
  { destruct (ss_right g a2) eqn:E; auto.
    assert (Hlt : (0 < ss_right g a2)%nat) by lia. apply ss_right_spec in Hlt; auto. lia. }
  rewrite Hz in Hte. rewrite Hz2 in Hxs. apply getitem_ok in Hte as [_ ->]. apply getitem_ok in Hxs as [_ ->].
  apply getitem_ok in Hxe as [Hxei ->].
  assert (Hxe0 : gat g 0 <= gat g (ss_left g b2)) by (apply Hs; lia).
  assert (Hpair : exists pr, wf_pair w (seq 0 n) g (mkWS (gat g 0) (gat g 0) (gat g 0) (gat g (ss_left g b2))) = Ok pr /\ pr = (tr, te)).
  { destruct fuel; cbn [wf_loop] in H; (destruct (get_last g); [|discriminate]); simpl ws_te in H;
    (destruct (_ <? _); [|discriminate]); (destruct (wf_pair w (seq 0 n) g _) as [pr|] eqn:Ep; [|discriminate]).
    - discriminate.
    - exists pr; split; auto. simpl ws_xe in H. destruct (_ >=? _); [injection H as <- _; auto|].
      destruct (wf_advance w g _); simpl in H; injection H as <- _; auto. }
  destruct Hpair as [pr [Hp ->]]. unfold wf_pair in Hp. simpl ws_ts in Hp; simpl ws_te in Hp; simpl ws_xs in Hp; simpl ws_xe in Hp.
  apply bind_ok in Hp as [tr0 [H1 Hp]]. apply mask_select_seq in H1 as [Hlen ->].
  apply bind_ok in Hp as [te1 [H1 Hp]]. apply mask_select_seq in H1 as [_ ->].
  assert (I1 : In 0%nat (filter (fun i => (gat g i >=? gat g 0) && (gat g i <=? gat g 0)) (seq 0 n))).
  { apply filter_In. rewrite in_seq. split; [lia|]. lia. }
  assert (I2 : In 0%nat (filter (fun i => (gat g i >=? gat g 0) && (gat g i <=? gat g (ss_left g b2))) (seq 0 n))).
  { apply filter_In. rewrite in_seq. split; [lia|]. lia. }
  destruct (delta_pos (wf_embargo w)).
  - apply bind_ok in Hp as [tr1 [H1 Hp]]. injection Hp as <- <-. split; auto.
    apply embargo_ok in H1 as [_ [_ [_ [_ [_ [E4 _]]]]]]. destruct E4 as [mn [[j [J1 J2]] [J3 J4]]].
    { intros E. rewrite E in I2. destruct I2. }
    apply J4. split; auto. intros [_ Hx]. specialize (J3 0%nat I2). lia.
  - injection Hp as <- <-. auto.
Qed.
Print Assumptions C15_default_train_window_leaks.

Example C15_example : exists w o0,
  wf_init (PDelta (DInt 1)) (PDelta (DInt 0)) 0 2 SExpanding None = Ok (w, o0) /\
  yields (fst (wf_split w 2 (XArr 5) YNone GNone o0)) = [([0], [0;1]); ([0;2], [2;3])]%nat.
Proof. eexists; eexists. split; [reflexivity|]. vm_compute. reflexivity. Qed.

(** * C17 *)
Theorem C17_walk_forward_series_groups_fail : forall w fuel n y g o,
  is_series (g_kind g) = true -> y <> YBad -> nondecr (g_val g) ->
  exists err, wf_split w fuel (XArr n) y (GArr g) o = (mkGen [] (Raised err), o) /\
  (err = KeyError \/ err = TypeError) /\
  (typed (g_kind g) (wf_train w) -> typed (g_kind g) (wf_test w) -> typed (g_kind g) (wf_unit w) -> err = KeyError).
Proof.
  intros w fuel n y g o Hser Hy Hs. unfold wf_split.
  replace (basecv_split (XArr n) y (GArr g)) with (Ok tt : res unit)
    by (simpl; rewrite (proj2 (sortedb_spec _) Hs); destruct y; congruence).
  assert (Hget : forall i, (exists v, getitem g i = Ok v) \/ getitem g i = Raise KeyError).
  { intros i. unfold getitem. rewrite Hser. destruct (nth_error (g_val g) i); eauto. }
  assert (Hplus : forall v d, (exists r, plus_delta (g_kind g) v d = Ok r) \/
     (plus_delta (g_kind g) v d = Raise TypeError /\ ~ typed (g_kind g) d)).
  { intros v d. unfold plus_delta, typed. destruct d; destruct (is_time (g_kind g)); eauto; right; split; auto; discriminate. }
  assert (Hst : (exists s, wf_start w g = Ok s) \/ wf_start w g = Raise KeyError \/
     (wf_start w g = Raise TypeError /\
      ~ (typed (g_kind g) (wf_train w) /\ typed (g_kind g) (wf_test w) /\ typed (g_kind g) (wf_unit w)))).
  { unfold wf_start.
    assert (Hng : forall d, typed (g_kind g) d -> typed (g_kind g) (neg_delta d)) by (intros [a|a]; auto).
    destruct (Hget 0%nat) as [[v0 ->]| ->]; [|auto]. cbn [bind].
    destruct (Hplus v0 (wf_train w)) as [[a ->]|[-> Ht]]; [|right; right; split; [reflexivity|tauto]]. cbn [bind].
    destruct (Hplus a (neg_delta (wf_unit w))) as [[a2 ->]|[-> Ht]];
      [|right; right; split; [reflexivity|intros [_ [_ H3]]; apply Ht; auto]]. cbn [bind].
    destruct (Hget (ss_left g a2)) as [[v1 ->]| ->]; [|auto]. cbn [bind].
    destruct (Hget (ss_right g a2)) as [[v2 ->]| ->]; [|auto]. cbn [bind].
    destruct (Hplus v2 (wf_test w)) as [[b ->]|[-> Ht]]; [|right; right; split; [reflexivity|tauto]]. cbn [bind].
    destruct (Hplus b (neg_delta (wf_unit w))) as [[b2 ->]|[-> Ht]];
      [|right; right; split; [reflexivity|intros [_ [_ H3]]; apply Ht; auto]]. cbn [bind].
    destruct (Hget (ss_left g b2)) as [[v3 ->]| ->]; [|auto]. cbn [bind]. eauto. }
  destruct Hst as [[s ->]|[-> | [-> Hnt]]].
  - exists KeyError. split; auto.
    assert (Hl : get_last g = Raise KeyError) by (unfold get_last; rewrite Hser; auto).
    destruct fuel; cbn [wf_loop]; rewrite Hl; reflexivity.
  - exists KeyError; auto.
  - exists TypeError. split; auto. split; auto. intros; tauto.
Qed.
Print Assumptions C17_walk_forward_series_groups_fail.

Example C17_example : exists w o0, let d := 86400000000000 in
  wf_init (PDelta (DInt 0)) (PDelta (DInt 0)) 2 1 SExpanding (Some d) = Ok (w, o0) /\
  wf_split w 5 (XArr 5) YNone (GArr (mkG SerTime [0; d; 2*d; 3*d; 4*d])) o0 = (mkGen [] (Raised KeyError), o0).
Proof. eexists; eexists. cbv zeta. split; [reflexivity|]. vm_compute. reflexivity. Qed.
