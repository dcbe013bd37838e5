(** Property C123: WalkForward on groups given as an array of fixed-width integers. *)
From Coq Require Import List ZArith Bool Arith Lia Sorted.
From Verif Require Import Base Split_Model Split_Proofs Walk_Proofs Split_Props Word_Model Word_Props WordWF_Model.
Import ListNotations.
Open Scope Z_scope.

Lemma get_In : forall v i x, getitem (mkG ArrInt v) i = Ok x -> (i < length v)%nat /\ nth i v 0 = x.
Proof. intros v i x H. unfold getitem in H. cbn [g_val g_kind is_series] in H. destruct (nth_error v i) as [y|] eqn:E; [|discriminate]. injection H as ->. split; [apply nth_error_Some; congruence|apply nth_error_nth; exact E]. Qed.
Lemma get_range : forall v i x, ascending v -> getitem (mkG ArrInt v) i = Ok x -> nth 0 v 0 <= x <= nth (length v - 1) v 0.
Proof. intros v i x H E. apply get_In in E as [Hi <-]. split; apply H; lia. Qed.
Lemma get_left : forall v a x, ascending v -> getitem (mkG ArrInt v) (ss_left (mkG ArrInt v) a) = Ok x -> a <= x.
Proof.
  intros v a x H E. apply get_In in E as [Hi <-]. destruct (Z_lt_le_dec (nth (ss_left (mkG ArrInt v) a) v 0) a) as [L|L]; [|exact L].
  exfalso. apply (proj1 (ss_left_spec (mkG ArrInt v) a (proj1 (ascending_nondecr v) H) _ Hi)) in L. lia.
Qed.
Lemma get_right : forall v a x, ascending v -> getitem (mkG ArrInt v) (ss_right (mkG ArrInt v) a) = Ok x -> a < x.
Proof.
  intros v a x H E. apply get_In in E as [Hi <-]. destruct (Z_le_gt_dec (nth (ss_right (mkG ArrInt v) a) v 0) a) as [L|L]; [|lia].
  exfalso. apply (proj1 (ss_right_spec (mkG ArrInt v) a (proj1 (ascending_nondecr v) H) _ Hi)) in L. lia.
Qed.
Lemma holds_between : forall t a b z, holds t a -> holds t b -> a <= z <= b -> holds t z.
Proof. intros t a b z Ha Hb H. apply holds_low. apply holds_low in Ha, Hb. lia. Qed.
Lemma w_plus_ok : forall t x a, holds t a -> holds t (x + a) -> w_plus t x (DInt a) = Ok (x + a).
Proof. intros t x a Ha H. unfold w_plus. rewrite (proj2 (fitsb_spec t a) Ha), wrap_holds by exact H. reflexivity. Qed.
Lemma w_minus_ok : forall t x a, holds t a -> holds t (x - a) -> w_minus t x (DInt a) = Ok (x - a).
Proof. intros t x a Ha H. unfold w_minus. rewrite (proj2 (fitsb_spec t a) Ha), wrap_holds by exact H. reflexivity. Qed.

(** As long as the type can hold the last group plus either window, the range of the groups, and the first possible start of a test window minus
    the embargo, WalkForward does what C09-C14 say. *)
Theorem C123_in_range : forall t w n v tw xw e fuel o, wf_freq w = None -> wf_train w = DInt tw -> wf_test w = DInt xw -> wf_embargo w = DInt e ->
  1 <= tw -> 1 <= xw -> 0 <= e -> v <> [] -> ascending v ->
  let first := nth 0 v 0 in let last := nth (length v - 1) v 0 in
  holds t first -> holds t tw -> holds t xw -> holds t e ->
  holds t (last + tw) -> holds t (last + xw) -> holds t (last - first) -> holds t (first + tw - e) ->
  ww_split t w fuel n v o = wf_split w fuel (XArr n) YNone (GArr (mkG ArrInt v)) o.
Proof.
  intros t w n v tw xw e fuel o Hf Htw Hxw He T1 X1 E0 Hv Ha first last F1 F2 F3 F4 F5 F6 F7 F8.
  assert (FL : first <= last) by (apply Ha; destruct v; [contradiction|cbn [length]; lia]).
  assert (One : holds t 1) by (destruct t as [k|k]; cbn [holds] in *; [pose proof (Z.pow_le_mono_r 2 1 (Z.pos k)); lia|pose proof (Z.pow_nonneg 2 (Z.pos k - 1)); lia]).
  assert (Low : low t <= 0) by (destruct t as [k|k]; cbn [low]; [lia|]; pose proof (Z.pow_nonneg 2 (Z.pos k - 1)); lia).
  assert (Es : w_sortedb t v = sortedb v).
  { apply w_sortedb_eq. intros i Hi. assert (nth i v 0 <= nth (S i) v 0) by (apply Ha; lia). assert (first <= nth i v 0) by (apply Ha; lia). assert (nth (S i) v 0 <= last) by (apply Ha; lia).
    apply holds_low. apply holds_low in F7. lia. }
  assert (GR : forall i x, getitem (mkG ArrInt v) i = Ok x -> first <= x <= last) by (intros i x; apply get_range, Ha).
  assert (PX : forall x, first <= x <= last -> w_plus t x (DInt xw) = plus_delta ArrInt x (DInt xw)).
  { intros x Hx. rewrite w_plus_ok; [reflexivity|exact F3|]. apply (holds_between t first (last + xw)); auto; lia. }
  unfold ww_split, wf_split, w_basecv, basecv_split. cbn [g_val x_rows]. rewrite Es. destruct (sortedb v) eqn:Esb; [|reflexivity].
  assert (St : ww_start t w v = wf_start w (mkG ArrInt v) /\ forall s, wf_start w (mkG ArrInt v) = Ok s -> first <= ws_ts s <= ws_te s /\ ws_te s <= last /\ first + tw <= ws_xs s <= last /\ first <= ws_xe s <= last).
  { unfold ww_start, wf_start, wf_unit. rewrite Hf, Htw, Hxw. cbv zeta. destruct (getitem (mkG ArrInt v) 0) as [ts|] eqn:E1; [|split; [reflexivity|discriminate]]. cbn [bind].
    assert (ts = first) by (apply get_In in E1; unfold first; destruct E1; congruence). subst ts.
    rewrite w_plus_ok by (auto; apply (holds_between t first (last + tw)); auto; lia). cbn [bind g_kind plus_delta is_time neg_delta].
    rewrite w_minus_ok by (auto; apply (holds_between t first (last + tw)); auto; lia). cbn [bind]. replace (first + tw + - (1)) with (first + tw - 1) by lia.
    destruct (getitem (mkG ArrInt v) (ss_left (mkG ArrInt v) (first + tw - 1))) as [te|] eqn:E2; [|split; [reflexivity|discriminate]]. cbn [bind].
    destruct (getitem (mkG ArrInt v) (ss_right (mkG ArrInt v) (first + tw - 1))) as [xs|] eqn:E3; [|split; [reflexivity|discriminate]]. cbn [bind].
    pose proof (GR _ _ E2) as R2. pose proof (GR _ _ E3) as R3. pose proof (get_left _ _ _ Ha E2) as L2. pose proof (get_right _ _ _ Ha E3) as L3.
    rewrite PX by exact R3. cbn [plus_delta is_time bind]. rewrite w_minus_ok by (auto; apply (holds_between t first (last + xw)); auto; lia). cbn [bind]. replace (xs + xw + - (1)) with (xs + xw - 1) by lia.
    destruct (getitem (mkG ArrInt v) (ss_left (mkG ArrInt v) (xs + xw - 1))) as [xe|] eqn:E4; [|split; [reflexivity|discriminate]]. cbn [bind]. split; [reflexivity|].
    intros s E. injection E as <-. cbn [ws_ts ws_te ws_xs ws_xe]. pose proof (GR _ _ E4). lia. }
  destruct St as [-> Si]. destruct (wf_start w (mkG ArrInt v)) as [s|ex]; [|reflexivity]. specialize (Si s eq_refl). revert s o Si.
  assert (Pr : forall s, first + tw <= ws_xs s -> ww_pair t w (seq 0 n) v s = wf_pair w (seq 0 n) (mkG ArrInt v) s).
  { intros s Hs. unfold ww_pair, wf_pair. cbv zeta. destruct (mask_select (seq 0 n) (mkG ArrInt v) (fun x => (x >=? ws_ts s) && (x <=? ws_te s))) as [tr|]; [|reflexivity]. cbn [bind].
    destruct (mask_select (seq 0 n) (mkG ArrInt v) (fun x => (x >=? ws_xs s) && (x <=? ws_xe s))) as [te|] eqn:Et; [|reflexivity]. cbn [bind]. rewrite He. destruct (delta_pos (DInt e)); [|reflexivity].
    assert (EE : w_embargo t tr te (seq 0 n) v (DInt e) = embargo tr te (seq 0 n) (mkG ArrInt v) (DInt e)); [|rewrite EE; reflexivity].
    unfold w_embargo, embargo, w_validate, validate_purge_embargo_inputs. cbn [g_kind g_val]. rewrite Es, Esb. destruct (e <? 0); [reflexivity|]. cbn [bind].
    destruct (sel_min (mkG ArrInt v) te) as [m|] eqn:Em; [|reflexivity]. assert (Q := sel_min_spec _ _ _ Em). destruct m as [m|]; [|destruct Q as [_ Q]; cbn in Q; congruence].
    destruct Q as [(j & J1 & J2) _]. apply mask_select_seq in Et as [Hn ->]. cbn [g_val] in Hn. apply filter_In in J1 as [J1 J3]. apply in_seq in J1. apply andb_true_iff in J3 as [J3 _]. rewrite J2 in J3. apply Z.geb_le in J3.
    assert (Jr : m <= last) by (rewrite <- J2; unfold gat; cbn [g_val]; apply Ha; lia).
    cbn [bind]. unfold w_sub. rewrite (proj2 (fitsb_spec t e) F4). cbn [option_map bind plus_delta_o plus_delta neg_delta is_time].
    rewrite wrap_holds; [reflexivity|]. apply holds_low. apply holds_low in F8. apply holds_low in F5. lia. }
  induction fuel as [|fuel IH]; intros s o (S1 & S2 & S3 & S4); cbn [ww_loop wf_loop]; destruct (get_last (mkG ArrInt v)) as [l|]; try reflexivity; destruct (ws_te s <? l); try reflexivity; rewrite Pr by lia;
    destruct (wf_pair w (seq 0 n) (mkG ArrInt v) s) as [pr|]; try reflexivity.
  destruct (ws_xe s >=? l); [reflexivity|].
  assert (Ad : ww_advance t w v s = wf_advance w (mkG ArrInt v) s /\ forall s', wf_advance w (mkG ArrInt v) s = Ok s' -> first <= ws_ts s' <= ws_te s' /\ ws_te s' <= last /\ first + tw <= ws_xs s' <= last /\ first <= ws_xe s' <= last).
  { unfold ww_advance, wf_advance. rewrite Hxw. cbv zeta. rewrite !PX by lia. cbn [g_kind plus_delta is_time].
    assert (TS : exists ts, match wf_type w with Expanding => Ok (ws_ts s) | Rolling => Ok (ws_ts s + xw) end = Ok ts /\ first <= ts <= ws_ts s + xw) by (destruct (wf_type w); eexists; (split; [reflexivity|lia])).
    destruct TS as (ts & -> & Ts). cbn [bind].
    destruct (getitem (mkG ArrInt v) (ss_left (mkG ArrInt v) (ws_te s + xw))) as [te|] eqn:E2; [|split; [reflexivity|discriminate]]. cbn [bind].
    destruct (getitem (mkG ArrInt v) (ss_left (mkG ArrInt v) (ws_xs s + xw))) as [xs|] eqn:E3; [|split; [reflexivity|discriminate]]. cbn [bind].
    destruct (get_last (mkG ArrInt v)) as [l'|]; [|split; [reflexivity|discriminate]]. cbn [bind].
    destruct (getitem (mkG ArrInt v) (ss_left (mkG ArrInt v) (Z.min (ws_xe s + xw) l'))) as [xe|] eqn:E4; [|split; [reflexivity|discriminate]]. cbn [bind]. split; [reflexivity|].
    intros s' E. injection E as <-. cbn [ws_ts ws_te ws_xs ws_xe]. pose proof (GR _ _ E2). pose proof (GR _ _ E3). pose proof (GR _ _ E4). pose proof (get_left _ _ _ Ha E2). pose proof (get_left _ _ _ Ha E3). lia. }
  destruct Ad as [-> Ai]. destruct (wf_advance w (mkG ArrInt v) s) as [s'|ex]; [|reflexivity]. cbv zeta. rewrite (IH s' _ (Ai s' eq_refl)). reflexivity.
Qed.
Print Assumptions C123_in_range.
(** days 10, ..., 15 in one byte, training window 2, test window 2, embargo 1 *)
Example C123_in_range_example : let w := mkWF (DInt 1) (DInt 2) (DInt 2) Rolling None in let v := [10; 11; 12; 13; 14; 15] in
  ascending v /\ holds (Signed 8) (15 + 2) /\ holds (Signed 8) (15 - 10) /\ holds (Signed 8) (10 + 2 - 1) /\
  fst (ww_split (Signed 8) w 9 6 v (mkWO 0 false)) = mkGen [([0], [2; 3]); ([2], [4; 5])]%nat Done.
Proof. cbv zeta. split; [apply ascending_nondecr, sortedb_spec; reflexivity|]. cbn [holds]. change (2 ^ (8 - 1)) with 128. repeat split; try lia; vm_compute; reflexivity. Qed.

(* ------------------------------------------------------------------ *)
(** ** what happens beyond *)

(** Groups out of order are refused before the first pair, as long as the type holds the differences of neighbours (an unsigned type does not
    hold a negative one: C120_unsigned_order). *)
Theorem C123_order : forall t w n v fuel o, (forall i, (S i < length v)%nat -> holds t (nth (S i) v 0 - nth i v 0)) -> ~ ascending v ->
  ww_split t w fuel n v o = (mkGen [] (Raised ValueError), o).
Proof.
  intros t w n v fuel o Hd Na. unfold ww_split, w_basecv. rewrite (w_sortedb_eq t v Hd). destruct (sortedb v) eqn:E; [|reflexivity].
  exfalso. apply Na, ascending_nondecr, sortedb_spec, E.
Qed.
Print Assumptions C123_order.
Example C123_order_example : ~ ascending [3; 1; 2] /\ holds (Signed 8) (1 - 3) /\ ww_split (Signed 8) (mkWF (DInt 0) (DInt 1) (DInt 1) Rolling None) 5 3 [3; 1; 2] (mkWO 0 false) = (mkGen [] (Raised ValueError), mkWO 0 false).
Proof.
  split; [intros H; specialize (H 0%nat 1%nat); cbn in H; lia|]. split; [cbn [holds]; change (2 ^ (8 - 1)) with 128; lia|]. vm_compute. reflexivity.
Qed.

(** A window that the type of the groups cannot hold is an OverflowError before the first pair. *)
Theorem C123_overflow : forall t w n v tw fuel o, v <> [] -> ascending v -> holds t (nth (length v - 1) v 0 - nth 0 v 0) -> wf_train w = DInt tw -> ~ holds t tw ->
  fst (ww_split t w fuel n v o) = mkGen [] (Raised OverflowError).
Proof.
  intros t w n v tw fuel o Hv Ha Hr Htw N. unfold ww_split, w_basecv.
  assert (Es : w_sortedb t v = true).
  { rewrite w_sortedb_eq; [apply sortedb_spec, ascending_nondecr, Ha|]. intros i Hi. assert (nth i v 0 <= nth (S i) v 0) by (apply Ha; lia). assert (nth 0 v 0 <= nth i v 0) by (apply Ha; lia). assert (nth (S i) v 0 <= nth (length v - 1) v 0) by (apply Ha; lia).
    apply holds_low. apply holds_low in Hr. assert (low t <= 0) by (destruct t as [k|k]; cbn [low]; [lia|]; pose proof (Z.pow_nonneg 2 (Z.pos k - 1)); lia). lia. }
  rewrite Es. unfold ww_start. cbv zeta. destruct v as [|a v]; [contradiction|]. cbn [getitem nth_error g_val bind]. rewrite Htw. unfold w_plus. destruct (fitsb t tw) eqn:E; [apply fitsb_spec in E; contradiction|]. reflexivity.
Qed.
Print Assumptions C123_overflow.
Example C123_overflow_example : fst (ww_split (Signed 8) (mkWF (DInt 0) (DInt 200) (DInt 2) Expanding None) 5 4 [1; 2; 3; 4] (mkWO 0 false)) = mkGen [] (Raised OverflowError).
Proof. vm_compute. reflexivity. Qed.

(** A training window that reaches beyond the largest number of the type: in exact arithmetic it is longer than the data, an IndexError.
    With wrapping sums the call goes on, and the first pair trains and tests on the same sample. *)
Theorem C123_long_window : forall t w n v tw xw e fuel o, wf_freq w = None -> wf_train w = DInt tw -> wf_test w = DInt xw -> wf_embargo w = DInt e -> e <= 0 ->
  v <> [] -> ascending v -> (forall x, In x v -> holds t x) -> 1 <= tw -> holds t tw -> ~ holds t (nth 0 v 0 + tw - 1) ->
  wf_split w fuel (XArr n) YNone (GArr (mkG ArrInt v)) o = (mkGen [] (Raised IndexError), o)
  /\ forall tr te rest, yields (fst (ww_split t w (S fuel) n v o)) = (tr, te) :: rest -> In 0%nat tr /\ In 0%nat te.
Proof.
  intros t w n v tw xw e fuel o Hf Htw Hxw He E0 Hv Ha Hh T1 F2 N.
  assert (H0 : In (nth 0 v 0) v) by (apply nth_In; destruct v; [contradiction|cbn [length]; lia]). pose proof (Hh _ H0) as F1. apply holds_low in F1. pose proof F2 as F2'. apply holds_low in F2'. rewrite holds_low in N.
  assert (Low : low t <= 0) by (destruct t as [k|k]; cbn [low]; [lia|]; pose proof (Z.pow_nonneg 2 (Z.pos k - 1)); lia).
  assert (G0 : getitem (mkG ArrInt v) 0 = Ok (nth 0 v 0)) by (destruct v; [contradiction|reflexivity]).
  assert (Big : forall i x, getitem (mkG ArrInt v) i = Ok x -> x < low t + 2 ^ bits t) by (intros i x E; apply get_In in E as [Hi <-]; apply holds_low, Hh, nth_In, Hi).
  split.
  - unfold wf_split, basecv_split. cbn [g_val x_rows]. rewrite (proj2 (sortedb_spec v)) by (apply ascending_nondecr, Ha). unfold wf_start, wf_unit. rewrite Hf, Htw, G0. cbn [bind g_kind plus_delta is_time neg_delta].
    replace (nth 0 v 0 + tw + - (1)) with (nth 0 v 0 + tw - 1) by lia. destruct (getitem (mkG ArrInt v) (ss_left (mkG ArrInt v) (nth 0 v 0 + tw - 1))) as [te|ex] eqn:E2.
    + pose proof (get_left _ _ _ Ha E2). pose proof (Big _ _ E2). lia.
    + unfold getitem in E2. cbn [g_kind is_series] in E2. destruct (nth_error _ _); [discriminate|]. injection E2 as <-. reflexivity.
  - intros tr te rest HY. unfold ww_split in HY. destruct (w_basecv t v); [|discriminate]. destruct (ww_start t w v) as [s|] eqn:Es; [|discriminate].
    assert (S0 : ws_ts s = nth 0 v 0 /\ ws_te s = nth 0 v 0 /\ ws_xs s = nth 0 v 0 /\ nth 0 v 0 <= ws_xe s).
    { unfold ww_start, wf_unit in Es. rewrite Hf, Htw, G0 in Es. cbv zeta in Es. cbn [bind] in Es. unfold w_plus in Es at 1. rewrite (proj2 (fitsb_spec t tw) F2) in Es. cbn [bind] in Es. unfold w_minus in Es at 1. destruct (fitsb t 1); [|discriminate]. cbn [bind] in Es.
      assert (W : wrap t (wrap t (nth 0 v 0 + tw) - 1) = nth 0 v 0 + tw - 1 - 2 ^ bits t).
      { pose proof (two_bits t). destruct (Z_lt_le_dec (nth 0 v 0 + tw) (low t + 2 ^ bits t)) as [L|L]; [lia|]. rewrite (wrap_above t (nth 0 v 0 + tw)) by lia.
        rewrite wrap_holds; [lia|]. apply holds_low. lia. }
      rewrite W in Es. assert (A0 : nth 0 v 0 + tw - 1 - 2 ^ bits t < nth 0 v 0) by lia. revert Es A0. generalize (nth 0 v 0 + tw - 1 - 2 ^ bits t). intros aa Es A0.
      assert (FE : forall f : Z -> bool, (forall x, In x v -> f x = false) -> filter f v = []).
      { intros f Hx. clear -Hx. induction v as [|b v IH]; [reflexivity|]. cbn [filter]. rewrite (Hx b) by (left; reflexivity). apply IH. intros; apply Hx; right; auto. }
      assert (Ge : forall x, In x v -> nth 0 v 0 <= x) by (intros x Hx; apply (In_nth _ _ 0) in Hx as (i & Hi & <-); apply Ha; lia).
      assert (SL : ss_left (mkG ArrInt v) aa = 0%nat) by (unfold ss_left; cbn [g_val]; rewrite FE; [reflexivity|]; intros x Hx; apply Z.ltb_ge; specialize (Ge x Hx); lia).
      assert (SR : ss_right (mkG ArrInt v) aa = 0%nat) by (unfold ss_right; cbn [g_val]; rewrite FE; [reflexivity|]; intros x Hx; apply Z.leb_gt; specialize (Ge x Hx); lia).
      rewrite SL, SR, G0 in Es. cbn [bind] in Es. apply bind_ok in Es as (b & _ & Es). apply bind_ok in Es as (b' & _ & Es). apply bind_ok in Es as (xe & Ex & Es). apply get_In in Ex as [Hi Ex]. injection Es as <-. repeat split; try reflexivity. cbn [ws_xe]. rewrite <- Ex. apply Ge, nth_In, Hi. }
    destruct S0 as (S1 & S2 & S3 & S4). cbn [ww_loop] in HY. destruct (get_last (mkG ArrInt v)) as [l|]; [|discriminate]. destruct (ws_te s <? l); [|discriminate]. destruct (ww_pair t w (seq 0 n) v s) as [pr|] eqn:Ep; [|discriminate].
    assert (Hpr : pr = (tr, te)) by (destruct (ws_xe s >=? l); [cbn in HY; congruence|]; destruct (ww_advance t w v s); cbn [fst yields] in HY; congruence). subst pr.
    unfold ww_pair in Ep. cbv zeta in Ep. rewrite He in Ep. cbn [delta_pos] in Ep. destruct (Z.gtb_spec e 0); [lia|]. apply bind_ok in Ep as (tr' & E1 & Ep). apply bind_ok in Ep as (te' & E2 & Ep). assert (tr' = tr /\ te' = te) as [-> ->] by (split; congruence).
    apply mask_select_seq in E1 as [Hn ->]. apply mask_select_seq in E2 as [_ ->]. cbn [g_val] in Hn. assert (Pos : (0 < n)%nat) by (rewrite <- Hn; destruct v; [contradiction|cbn [length]; lia]). split.
    + apply filter_In. split; [apply in_seq; lia|]. unfold gat. cbn [g_val]. rewrite S1, S2. apply andb_true_iff. rewrite Z.geb_le, Z.leb_le. lia.
    + apply filter_In. split; [apply in_seq; lia|]. unfold gat. cbn [g_val]. rewrite S3. apply andb_true_iff. rewrite Z.geb_le, Z.leb_le. lia.
Qed.
Print Assumptions C123_long_window.
(** days 100, ..., 107 in one byte and a training window of 30 days *)
Example C123_long_window_example : let w := mkWF (DInt 0) (DInt 30) (DInt 3) Expanding None in let v := [100; 101; 102; 103; 104; 105; 106; 107] in
  ~ holds (Signed 8) (nth 0 v 0 + 30 - 1) /\ fst (wf_split w 9 (XArr 8) YNone (GArr (mkG ArrInt v)) (mkWO 0 false)) = mkGen [] (Raised IndexError) /\
  yields (fst (ww_split (Signed 8) w 9 8 v (mkWO 0 false))) = [([0], [0; 1; 2]); ([0; 1; 2; 3], [3; 4; 5]); ([0; 1; 2; 3; 4; 5; 6], [6; 7])]%nat.
Proof. cbv zeta. split; [cbn [holds nth]; change (2 ^ (8 - 1)) with 128; lia|]. split; vm_compute; reflexivity. Qed.

(** ** groups at the upper end of the type *)
Section Top.
Variable M : Z.
Let v := [M - 3; M - 2; M - 1; M].
Lemma top_left : forall a, a <= M -> getitem (mkG ArrInt v) (ss_left (mkG ArrInt v) a) = Ok (Z.max (M - 3) a).
Proof.
  intros a H. unfold ss_left, v. cbn [g_val filter]. destruct (Z.ltb_spec (M - 3) a), (Z.ltb_spec (M - 2) a), (Z.ltb_spec (M - 1) a), (Z.ltb_spec M a); try lia; cbn [length getitem g_val nth_error]; f_equal; lia.
Qed.
Lemma top_right : forall a, a < M -> getitem (mkG ArrInt v) (ss_right (mkG ArrInt v) a) = Ok (Z.max (M - 3) (a + 1)).
Proof.
  intros a H. unfold ss_right, v. cbn [g_val filter]. destruct (Z.leb_spec (M - 3) a), (Z.leb_spec (M - 2) a), (Z.leb_spec (M - 1) a), (Z.leb_spec M a); try lia; cbn [length getitem g_val nth_error]; f_equal; lia.
Qed.
Lemma top_mask : forall a b, mask_select [0; 1; 2; 3]%nat (mkG ArrInt v) (fun x => (x >=? M - 3 + a) && (x <=? M - 3 + b)) = Ok (filter (fun i => (Z.of_nat i >=? a) && (Z.of_nat i <=? b)) [0; 1; 2; 3]%nat).
Proof.
  intros a b. unfold mask_select, v. cbn [g_val length Nat.eqb combine].
  assert (E : forall i x, x = M - 3 + Z.of_nat i -> (x >=? M - 3 + a) && (x <=? M - 3 + b) = (Z.of_nat i >=? a) && (Z.of_nat i <=? b)).
  { intros i x ->. rewrite !Z.geb_leb. destruct (Z.leb_spec (M - 3 + a) (M - 3 + Z.of_nat i)), (Z.leb_spec a (Z.of_nat i)), (Z.leb_spec (M - 3 + Z.of_nat i) (M - 3 + b)), (Z.leb_spec (Z.of_nat i) b); try lia; reflexivity. }
  cbn [filter snd]. rewrite (E 0%nat (M - 3)), (E 1%nat (M - 2)), (E 2%nat (M - 1)), (E 3%nat M) by lia.
  destruct ((Z.of_nat 0 >=? a) && _), ((Z.of_nat 1 >=? a) && _), ((Z.of_nat 2 >=? a) && _), ((Z.of_nat 3 >=? a) && _); reflexivity.
Qed.
End Top.

Definition largest (t : word) : Z := low t + 2 ^ bits t - 1.

(** WalkForward with training window 1 and test window 2 on the four largest numbers of any type of at least 3 bits.  Exact arithmetic: two pairs.
    Wrapping: the second test set is empty, afterwards the sample trained on is tested on in every other pair, and the generator never ends. *)
Theorem C123_never_ends_refuted : forall t, 3 <= bits t ->
  let M := largest t in let v := [M - 3; M - 2; M - 1; M] in let w := mkWF (DInt 0) (DInt 1) (DInt 2) Expanding None in
  holds t M /\ holds t (M - 3)
  /\ (forall fuel o, fst (wf_split w (2 + fuel) (XArr 4) YNone (GArr (mkG ArrInt v)) o) = mkGen [([0], [1; 2]); ([0; 1; 2], [3])]%nat Done)
  /\ forall k o, fst (ww_split t w (2 + 2 * k) 4 v o) = mkGen ([([0], [1; 2]); ([0; 1; 2], [])] ++ concat (repeat [([0], [0; 1; 2]); ([0; 1; 2], [])] k))%nat Running.
Proof.
  intros t Hb M v w. assert (P8 : 8 <= 2 ^ bits t) by (change 8 with (2 ^ 3); apply Z.pow_le_mono_r; lia).
  assert (Hlo : forall z, low t <= z <= M -> holds t z) by (intros z Hz; apply holds_low; unfold M, largest in Hz; lia).
  assert (Low : low t <= 0) by (destruct t as [k|k]; cbn [low]; [lia|]; pose proof (Z.pow_nonneg 2 (Z.pos k - 1)); lia).
  assert (H2 : holds t 2 /\ holds t 1).
  { destruct t as [k|k]; cbn [holds bits] in *; [lia|]. assert (4 <= 2 ^ (Z.pos k - 1)) by (change 4 with (2 ^ 2); apply Z.pow_le_mono_r; lia). lia. }
  destruct H2 as [H2 H1]. assert (ML : M = low t + 2 ^ bits t - 1) by reflexivity.
  split; [apply Hlo; lia|]. split; [apply Hlo; lia|].
  assert (PL : forall x, low t <= x <= M - 2 -> w_plus t x (DInt 2) = Ok (x + 2)) by (intros x Hx; apply w_plus_ok; [exact H2|apply Hlo; lia]).
  assert (PW : forall x, M - 1 <= x <= M -> w_plus t x (DInt 2) = Ok (low t + (x - (M - 1)))).
  { intros x Hx. unfold w_plus. rewrite (proj2 (fitsb_spec t 2) H2). rewrite wrap_above by lia. f_equal. lia. }
  assert (P1 : forall x, low t <= x <= M - 1 -> w_plus t x (DInt 1) = Ok (x + 1)) by (intros x Hx; apply w_plus_ok; [exact H1|apply Hlo; lia]).
  assert (M1 : forall x, low t + 1 <= x <= M -> w_minus t x (DInt 1) = Ok (x - 1)) by (intros x Hx; apply w_minus_ok; [exact H1|apply Hlo; lia]).
  assert (GL : forall a z, a <= M -> Z.max (M - 3) a = z -> getitem (mkG ArrInt v) (ss_left (mkG ArrInt v) a) = Ok z) by (intros a z Hz <-; apply top_left, Hz).
  assert (GG : forall a z, a < M -> Z.max (M - 3) (a + 1) = z -> getitem (mkG ArrInt v) (ss_right (mkG ArrInt v) a) = Ok z) by (intros a z Hz <-; apply top_right, Hz).
  assert (SV : sortedb v = true) by (unfold v; cbn [sortedb]; repeat (apply andb_true_iff; split); auto; apply Z.leb_le; lia).
  assert (SW : w_sortedb t v = true) by (rewrite w_sortedb_eq; [exact SV|]; intros i Hi; replace (nth (S i) v 0 - nth i v 0) with 1; [exact H1|]; unfold v in *; cbn [length] in Hi; destruct i as [|[|[|i]]]; cbn [nth]; lia).
  assert (PR : forall a b c d tr te, filter (fun i => (Z.of_nat i >=? a) && (Z.of_nat i <=? b)) [0; 1; 2; 3]%nat = tr -> filter (fun i => (Z.of_nat i >=? c) && (Z.of_nat i <=? d)) [0; 1; 2; 3]%nat = te ->
    wf_pair w (seq 0 4) (mkG ArrInt v) (mkWS (M - 3 + a) (M - 3 + b) (M - 3 + c) (M - 3 + d)) = Ok (tr, te) /\ ww_pair t w (seq 0 4) v (mkWS (M - 3 + a) (M - 3 + b) (M - 3 + c) (M - 3 + d)) = Ok (tr, te)).
  { intros a b c d tr te <- <-. unfold wf_pair, ww_pair. cbv zeta. cbn [ws_ts ws_te ws_xs ws_xe seq]. rewrite !(top_mask M). split; reflexivity. }
  split.
  - intros fuel o. unfold wf_split, basecv_split. cbn [g_val x_rows]. rewrite SV. unfold wf_start, wf_unit. cbn [w wf_freq wf_train wf_test getitem v nth_error g_val bind g_kind plus_delta is_time neg_delta]. fold v.
    rewrite (GL _ (M - 3 + 0)) by lia. cbn [bind]. rewrite (GG _ (M - 3 + 1)) by lia. cbn [bind]. rewrite (GL _ (M - 3 + 2)) by lia. cbn [bind].
    replace (mkWS (M - 3) (M - 3 + 0) (M - 3 + 1) (M - 3 + 2)) with (mkWS (M - 3 + 0) (M - 3 + 0) (M - 3 + 1) (M - 3 + 2)) by (f_equal; lia).
    change (2 + fuel)%nat with (S (S fuel)). cbn [wf_loop]. change (get_last (mkG ArrInt v)) with (Ok M). cbn [ws_te ws_xe]. destruct (Z.ltb_spec (M - 3 + 0) M); [|lia].
    rewrite (proj1 (PR 0 0 1 2 [0]%nat [1; 2]%nat eq_refl eq_refl)). rewrite Z.geb_leb. destruct (Z.leb_spec M (M - 3 + 2)); [lia|].
    unfold wf_advance. cbn [w wf_type wf_test ws_ts ws_te ws_xs ws_xe bind g_kind plus_delta is_time]. rewrite (GL _ (M - 3 + 2)) by lia. cbn [bind]. rewrite (GL _ (M - 3 + 3)) by lia. cbn [bind]. change (get_last (mkG ArrInt v)) with (Ok M). cbn [bind].
    rewrite (GL _ (M - 3 + 3)) by lia. cbn [bind ws_te ws_xe]. destruct (Z.ltb_spec (M - 3 + 2) M); [|lia]. fold w.
    rewrite (proj1 (PR 0 2 3 3 [0; 1; 2]%nat [3]%nat eq_refl eq_refl)). rewrite Z.geb_leb. destruct (Z.leb_spec M (M - 3 + 3)); [|lia]. reflexivity.
  - intros k o. unfold ww_split, w_basecv. rewrite SW. unfold ww_start, wf_unit. cbv zeta. cbn [w wf_freq wf_train wf_test getitem v nth_error g_val bind]. fold v.
    rewrite P1 by lia. cbn [bind]. rewrite M1 by lia. cbn [bind]. rewrite (GL _ (M - 3 + 0)) by lia. cbn [bind]. rewrite (GG _ (M - 3 + 1)) by lia. cbn [bind]. rewrite PL by lia. cbn [bind]. rewrite M1 by lia. cbn [bind]. rewrite (GL _ (M - 3 + 2)) by lia. cbn [bind]. fold w.
    replace (mkWS (M - 3) (M - 3 + 0) (M - 3 + 1) (M - 3 + 2)) with (mkWS (M - 3 + 0) (M - 3 + 0) (M - 3 + 1) (M - 3 + 2)) by (f_equal; lia).
    assert (ADV : forall a b c d b' c' d', 
       (let A := if M - 3 + b <=? M - 2 then M - 3 + b + 2 else low t + (M - 3 + b - (M - 1)) in Z.max (M - 3) A = M - 3 + b' /\ A <= M) -> low t <= M - 3 + b <= M ->
       (let A := if M - 3 + c <=? M - 2 then M - 3 + c + 2 else low t + (M - 3 + c - (M - 1)) in Z.max (M - 3) A = M - 3 + c' /\ A <= M) -> low t <= M - 3 + c <= M ->
       (let A := if M - 3 + d <=? M - 2 then M - 3 + d + 2 else low t + (M - 3 + d - (M - 1)) in Z.max (M - 3) (Z.min A M) = M - 3 + d' /\ A <= M) -> low t <= M - 3 + d <= M ->
       ww_advance t w v (mkWS (M - 3 + a) (M - 3 + b) (M - 3 + c) (M - 3 + d)) = Ok (mkWS (M - 3 + a) (M - 3 + b') (M - 3 + c') (M - 3 + d'))).
    { intros a b c d b' c' d' B1 B2 C1 C2 D1 D2. cbv zeta in B1, C1, D1. unfold ww_advance. cbv zeta. cbn [w wf_type wf_test ws_ts ws_te ws_xs ws_xe bind].
      assert (PP : forall x, low t <= x <= M -> w_plus t x (DInt 2) = Ok (if x <=? M - 2 then x + 2 else low t + (x - (M - 1)))) by (intros x Hx; destruct (Z.leb_spec x (M - 2)); [apply PL; lia|apply PW; lia]).
      rewrite !PP by assumption. cbn [bind]. destruct B1 as [B1 B3], C1 as [C1 C3], D1 as [D1 D3]. rewrite (GL _ _ B3 B1). cbn [bind]. rewrite (GL _ _ C3 C1). cbn [bind]. change (get_last (mkG ArrInt v)) with (Ok M). cbn [bind]. rewrite (GL _ (M - 3 + d')); [reflexivity|lia|exact D1]. }
    assert (A01 : ww_advance t w v (mkWS (M - 3 + 0) (M - 3 + 0) (M - 3 + 1) (M - 3 + 2)) = Ok (mkWS (M - 3 + 0) (M - 3 + 2) (M - 3 + 3) (M - 3 + 0))).
    { apply ADV; try lia; cbv zeta; [destruct (Z.leb_spec (M - 3 + 0) (M - 2))|destruct (Z.leb_spec (M - 3 + 1) (M - 2))|destruct (Z.leb_spec (M - 3 + 2) (M - 2))]; lia. }
    assert (A12 : ww_advance t w v (mkWS (M - 3 + 0) (M - 3 + 2) (M - 3 + 3) (M - 3 + 0)) = Ok (mkWS (M - 3 + 0) (M - 3 + 0) (M - 3 + 0) (M - 3 + 2))).
    { apply ADV; try lia; cbv zeta; [destruct (Z.leb_spec (M - 3 + 2) (M - 2))|destruct (Z.leb_spec (M - 3 + 3) (M - 2))|destruct (Z.leb_spec (M - 3 + 0) (M - 2))]; lia. }
    assert (A23 : ww_advance t w v (mkWS (M - 3 + 0) (M - 3 + 0) (M - 3 + 0) (M - 3 + 2)) = Ok (mkWS (M - 3 + 0) (M - 3 + 2) (M - 3 + 2) (M - 3 + 0))).
    { apply ADV; try lia; cbv zeta; [destruct (Z.leb_spec (M - 3 + 0) (M - 2))|destruct (Z.leb_spec (M - 3 + 0) (M - 2))|destruct (Z.leb_spec (M - 3 + 2) (M - 2))]; lia. }
    assert (A32 : ww_advance t w v (mkWS (M - 3 + 0) (M - 3 + 2) (M - 3 + 2) (M - 3 + 0)) = Ok (mkWS (M - 3 + 0) (M - 3 + 0) (M - 3 + 0) (M - 3 + 2))).
    { apply ADV; try lia; cbv zeta; [destruct (Z.leb_spec (M - 3 + 2) (M - 2))|destruct (Z.leb_spec (M - 3 + 2) (M - 2))|destruct (Z.leb_spec (M - 3 + 0) (M - 2))]; lia. }
    assert (Q0 := proj2 (PR 0 0 1 2 [0]%nat [1; 2]%nat eq_refl eq_refl)). assert (Q1 := proj2 (PR 0 2 3 0 [0; 1; 2]%nat [] eq_refl eq_refl)).
    assert (Q2 := proj2 (PR 0 0 0 2 [0]%nat [0; 1; 2]%nat eq_refl eq_refl)). assert (Q3 := proj2 (PR 0 2 2 0 [0; 1; 2]%nat [] eq_refl eq_refl)).
    assert (LT : forall f a b c d pr pr' s' s'' o', 0 <= b < 3 -> 0 <= d < 3 -> ww_pair t w (seq 0 4) v (mkWS a (M - 3 + b) c (M - 3 + d)) = Ok pr -> ww_advance t w v (mkWS a (M - 3 + b) c (M - 3 + d)) = Ok s' ->
       ws_te s' < M -> ws_xe s' < M -> ww_pair t w (seq 0 4) v s' = Ok pr' -> ww_advance t w v s' = Ok s'' ->
       exists o'', ww_loop t w (seq 0 4) v (S (S f)) (mkWS a (M - 3 + b) c (M - 3 + d)) o' = (mkGen (pr :: pr' :: yields (fst (ww_loop t w (seq 0 4) v f s'' o''))) (ended (fst (ww_loop t w (seq 0 4) v f s'' o''))), snd (ww_loop t w (seq 0 4) v f s'' o''))).
    { intros f a b c d pr pr' s' s'' o' Hb' Hd Ep Ea Ht Hx Ep' Ea'. cbn [ww_loop]. change (get_last (mkG ArrInt v)) with (Ok M). cbn [ws_te ws_xe]. destruct (Z.ltb_spec (M - 3 + b) M); [|lia]. rewrite Ep, Z.geb_leb. destruct (Z.leb_spec M (M - 3 + d)); [lia|]. rewrite Ea.
      destruct (Z.ltb_spec (ws_te s') M); [|lia]. rewrite Ep', Z.geb_leb. destruct (Z.leb_spec M (ws_xe s')); [lia|]. rewrite Ea'. cbn [fst snd yields ended]. eexists. reflexivity. }
    assert (CY : forall j o', fst (ww_loop t w (seq 0 4) v (2 * j) (mkWS (M - 3 + 0) (M - 3 + 0) (M - 3 + 0) (M - 3 + 2)) o') = mkGen (concat (repeat [([0], [0; 1; 2]); ([0; 1; 2], [])] j))%nat Running).
    { induction j as [|j IH]; intros o'.
      - change (2 * 0)%nat with 0%nat. cbn [ww_loop]. change (get_last (mkG ArrInt v)) with (Ok M). cbn [ws_te ws_xe]. destruct (Z.ltb_spec (M - 3 + 0) M); [|lia]. rewrite Q2. reflexivity.
      - replace (2 * S j)%nat with (S (S (2 * j))) by lia. destruct (LT (2 * j)%nat (M - 3 + 0) 0 (M - 3 + 0) 2 _ _ _ _ o' ltac:(lia) ltac:(lia) Q2 A23 ltac:(cbn [ws_te]; lia) ltac:(cbn [ws_xe]; lia) Q3 A32) as (o'' & ->). cbn [fst]. rewrite IH. reflexivity. }
    change (2 + 2 * k)%nat with (S (S (2 * k))). destruct (LT (2 * k)%nat (M - 3 + 0) 0 (M - 3 + 1) 2 _ _ _ _ o ltac:(lia) ltac:(lia) Q0 A01 ltac:(cbn [ws_te]; lia) ltac:(cbn [ws_xe]; lia) Q1 A12) as (o'' & ->). cbn [fst]. rewrite CY. reflexivity.
Qed.
Print Assumptions C123_never_ends_refuted.
(** the case of one signed byte: 124, ..., 127 *)
Example C123_never_ends_example : largest (Signed 8) = 127 /\ yields (fst (ww_split (Signed 8) (mkWF (DInt 0) (DInt 1) (DInt 2) Expanding None) 5 4 [124; 125; 126; 127] (mkWO 0 false)))
  = [([0], [1; 2]); ([0; 1; 2], []); ([0], [0; 1; 2]); ([0; 1; 2], []); ([0], [0; 1; 2])]%nat.
Proof. split; vm_compute; reflexivity. Qed.
