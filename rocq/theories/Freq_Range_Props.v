(** Property C78: frequency detection on regular ranges. *)
From Coq Require Import Reals Lra String ZArith List Arith Bool Lia.
From Verif Require Import Base Num Sim_Model Freq_Model Freq_Proofs Freq_Props.
Import ListNotations.
Open Scope Z_scope.

(* ------------------------------------------------------------------ *)
(** ** Specification vocabulary *)

(** stamps at the same time of day on the given days *)
Definition at_time (off : Z) (days : list Z) : list (option Z) := map (fun n => Some (n * day_ns + off)) days.
(** consecutive calendar days; every seventh day; consecutive business days (Monday is 0) *)
Definition every (k : Z) (n0 : Z) (n : nat) : list Z := map (fun i => n0 + k * Z.of_nat i) (seq 0 n).
Definition weekday (n : Z) : Z := (n + 3) mod 7.
Fixpoint business_days (n : nat) (day : Z) : list Z :=
  match n with O => [] | S n' => day :: business_days n' (if weekday day =? 4 then day + 3 else day + 1) end.
(** number of weekends inside the range *)
Definition weekends (days : list Z) : nat := length (filter (fun d => weekday d =? 4) (removelast days)).
(** months counted from year 0 *)
Definition month_number (day : Z) : Z := let '(y, m, d) := civil day in 12 * y + m.
(** consecutive month ends (quarter ends, year starts, ...): the days lie on the boundary, k months apart *)
Definition boundary_range (code : string) (k : Z) (days : list Z) : Prop :=
  forall i n, nth_error days i = Some n ->
    boundary code (civil n) /\ month_number n = month_number (hd 0 days) + k * Z.of_nat i.

(* ------------------------------------------------------------------ *)
(** ** C78 Regular ranges *)

Lemma day_of_at : forall n off, 0 <= off < day_ns -> day_of (n * day_ns + off) = n.
Proof. intros n off H. unfold day_of. rewrite Z.div_add_l by (unfold day_ns; lia). rewrite (Z.div_small off) by auto. lia. Qed.

(** month ends are at least 28 days apart *)
Lemma walk : forall y m k a, civil a = (y, m, 1) -> 0 <= k < days_in_month y m -> civil (a + k) = (y, m, 1 + k).
Proof.
  intros y m k a Ha Hk. assert (Hn : forall j, (Z.of_nat j < days_in_month y m) -> civil (a + Z.of_nat j) = (y, m, 1 + Z.of_nat j)).
  { induction j as [|j IH]; intros Hj; [replace (a + Z.of_nat 0) with a by lia; exact Ha|].
    replace (a + Z.of_nat (S j)) with (a + Z.of_nat j + 1) by lia. rewrite civil_next, IH by lia. unfold next_day.
    destruct (Z.ltb_spec (1 + Z.of_nat j) (days_in_month y m)); [|lia]. f_equal. lia. }
  specialize (Hn (Z.to_nat k) ltac:(lia)). replace (Z.of_nat (Z.to_nat k)) with k in Hn by lia. exact Hn.
Qed.
Definition me (n : Z) : Prop := let '(y, m, d) := civil n in d = days_in_month y m.
Definition ms (n : Z) : Prop := let '(y, m, d) := civil n in d = 1.
Lemma me_ms : forall n, me n <-> ms (n + 1).
Proof.
  intros n. unfold me, ms. rewrite civil_next. pose proof (civil_valid n) as V. destruct (civil n) as [[y m] d]. unfold next_day.
  destruct (Z.ltb_spec d (days_in_month y m)); [split; intros; lia|]. destruct (m <? 12); split; intros; lia.
Qed.
Lemma me_gap : forall a b, me a -> me b -> a < b -> a + 28 <= b.
Proof.
  intros a b Ha Hb Hab. destruct (Z_lt_le_dec b (a + 28)) as [H|H]; [|lia]. exfalso. apply me_ms in Ha. unfold ms in Ha.
  destruct (civil (a + 1)) as [[y m] d] eqn:E. subst d. pose proof (dim_bounds y m) as D.
  unfold me in Hb. replace b with (a + 1 + (b - a - 1)) in Hb by lia. rewrite (walk y m) in Hb by (auto; lia). lia.
Qed.
Lemma ms_gap : forall a b, ms a -> ms b -> a < b -> a + 28 <= b.
Proof.
  intros a b Ha Hb Hab. replace a with (a - 1 + 1) in Ha by lia. replace b with (b - 1 + 1) in Hb by lia.
  apply me_ms in Ha, Hb. pose proof (me_gap _ _ Ha Hb). lia.
Qed.

(** a property met only at list positions at least k apart is met by at most (length + k - 1) / k positions *)
Definition sparse {A} (k : nat) (f : A -> bool) (l : list A) : Prop :=
  forall i j a b, nth_error l i = Some a -> nth_error l j = Some b -> f a = true -> f b = true -> (i < j)%nat -> (i + k <= j)%nat.
Lemma sparse_skip : forall A k (f : A -> bool) l n, sparse k f l -> sparse k f (skipn n l).
Proof.
  intros A k f l n H i j a b Hi Hj Ha Hb Hij.
  assert (E : forall q, nth_error (skipn n l) q = nth_error l (n + q)).
  { clear. revert l. induction n as [|n IH]; intros l q; [reflexivity|]. destruct l as [|x l]; [destruct q; reflexivity|]. apply IH. }
  rewrite E in Hi, Hj. specialize (H _ _ _ _ Hi Hj Ha Hb). lia.
Qed.
Lemma sparse_count : forall A k (f : A -> bool) l, (1 <= k)%nat -> sparse k f l -> (k * length (filter f l) <= length l + k - 1)%nat.
Proof.
  intros A k f l Hk. remember (length l) as n eqn:En. revert l En. induction n as [n IH] using lt_wf_ind. intros l En Hs.
  destruct l as [|a t]; [cbn; lia|]. cbn [length] in En. cbn [filter]. destruct (f a) eqn:Ea.
  - cbn [length].
    assert (Hno : forall q, (q <= k - 1)%nat -> filter f t = filter f (skipn q t)).
    { intros q Hq. assert (G : forall l' q, (forall i b, (i < q)%nat -> nth_error l' i = Some b -> f b = false) -> filter f l' = filter f (skipn q l')).
      { clear. induction l' as [|x l' IH]; intros q H; [destruct q; reflexivity|]. destruct q as [|q]; [reflexivity|]. cbn [filter skipn].
        rewrite (H O x) by (auto; lia). apply IH. intros i b Hi Hb. apply (H (S i) b); [lia|exact Hb]. }
      apply G. intros i b Hi Hb. destruct (f b) eqn:Eb; [|reflexivity]. exfalso.
      assert (0 + k <= S i)%nat by (apply (Hs O (S i) a b); auto; lia). lia. }
    rewrite (Hno (k - 1)%nat) by lia.
    destruct (Nat.le_gt_cases (length t) (k - 1)) as [Hle|Hgt].
    + rewrite skipn_all2 by lia. cbn. nia.
    + assert (Hlen : length (skipn (k - 1) t) = (length t - (k - 1))%nat) by apply skipn_length.
      assert (Hsp : sparse k f (skipn (k - 1) t)) by (apply sparse_skip; apply (sparse_skip _ _ _ (a :: t) 1); auto).
      specialize (IH (length t - (k - 1))%nat ltac:(lia) (skipn (k - 1) t) (eq_sym Hlen) Hsp). nia.
  - specialize (IH (length t) ltac:(lia) t eq_refl (sparse_skip _ _ _ (a :: t) 1 Hs)). nia.
Qed.

Lemma count_at : forall off days f g, 0 <= off < day_ns -> (forall s, f s = g (day_of s)) -> count f (at_time off days) = length (filter g days).
Proof.
  intros off days f g Ho Hf. unfold count, at_time. induction days as [|n days IH]; [reflexivity|]. cbn [map filter].
  rewrite Hf, day_of_at by auto. destruct (g n); cbn [length]; rewrite IH; reflexivity.
Qed.
Lemma filter_impl_length : forall A (f g : A -> bool) l, (forall a, f a = true -> g a = true) -> (length (filter f l) <= length (filter g l))%nat.
Proof.
  induction l as [|a l IH]; intros H; [apply le_n|]. specialize (IH H). cbn [filter]. destruct (f a) eqn:E.
  - rewrite (H _ E). cbn [length]. lia.
  - destruct (g a); cbn [length]; lia.
Qed.

(** flags as functions of the day *)
Definition fme n := let '(y, m, d) := civil n in d =? days_in_month y m.
Definition fms n := let '(y, m, d) := civil n in d =? 1.
Definition fqe n := let '(y, m, d) := civil n in (m mod 3 =? 0) && (d =? days_in_month y m).
Definition fqs n := let '(y, m, d) := civil n in (m mod 3 =? 1) && (d =? 1).
Definition fye n := let '(y, m, d) := civil n in (m =? 12) && (d =? 31).
Definition fys n := let '(y, m, d) := civil n in (m =? 1) && (d =? 1).
Lemma fqe_me : forall n, fqe n = true -> fme n = true.
Proof. intros n. unfold fqe, fme. destruct (civil n) as [[y m] d]. rewrite andb_true_iff. tauto. Qed.
Lemma fqs_ms : forall n, fqs n = true -> fms n = true.
Proof. intros n. unfold fqs, fms. destruct (civil n) as [[y m] d]. rewrite andb_true_iff. tauto. Qed.
Lemma fye_qe : forall n, fye n = true -> fqe n = true.
Proof.
  intros n. unfold fye, fqe. destruct (civil n) as [[y m] d]. rewrite !andb_true_iff, !Z.eqb_eq. intros [-> ->]. split; [reflexivity|].
  reflexivity.
Qed.
Lemma fys_qs : forall n, fys n = true -> fqs n = true.
Proof. intros n. unfold fys, fqs. destruct (civil n) as [[y m] d]. rewrite !andb_true_iff, !Z.eqb_eq. intros [-> ->]. split; reflexivity. Qed.
Lemma fme_not_ms : forall n, fme n = true -> fms n = false.
Proof.
  intros n. unfold fme, fms. destruct (civil n) as [[y m] d]. rewrite Z.eqb_eq, Z.eqb_neq. pose proof (dim_bounds y m). lia.
Qed.

(** the six calendar tests in terms of day flags *)
Lemma freq_at : forall off days, 0 <= off < day_ns -> (3 <= length days)%nat ->
  time_series_freq (TsIndex (at_time off days)) =
  let n := length days in
  let td := deltas (at_time off days) in
  let m := length td in
  if Nat.ltb m 2 then None
  else if almost_all (length (filter fye days)) n then Some "YE"%string
  else if almost_all (length (filter fys days)) n then Some "YS"%string
  else if almost_all (length (filter fqe days)) n then Some "QE"%string
  else if almost_all (length (filter fqs days)) n then Some "QS"%string
  else if almost_all (length (filter fme days)) n then Some "ME"%string
  else if almost_all (length (filter fms days)) n then Some "MS"%string
  else if Nat.leb (m - count_delta day_ns td) 2 then Some "D"%string
  else if Nat.leb (9 * m) (10 * length (filter (fun d => (d / day_ns =? 1) || (d / day_ns =? 3)) td)) then Some "B"%string
  else if almost_all (count_delta (7 * day_ns) td) m then Some "W"%string
  else None.
Proof.
  intros off days Ho Hl. cbn [time_series_freq]. unfold freq_of_index. cbv zeta.
  rewrite (count_at off days is_year_end fye), (count_at off days is_year_start fys), (count_at off days is_quarter_end fqe),
    (count_at off days is_quarter_start fqs), (count_at off days is_month_end fme), (count_at off days is_month_start fms)
    by (auto; intros; reflexivity).
  replace (length (at_time off days)) with (length days) by (unfold at_time; rewrite map_length; reflexivity). reflexivity.
Qed.

(** consecutive differences *)
Fixpoint gaps (l : list Z) : list Z := match l with a :: ((b :: _) as t) => (b - a) :: gaps t | _ => [] end.
Lemma deltas_at : forall off days, deltas (at_time off days) = map (fun g => g * day_ns) (gaps days).
Proof.
  intros off. induction days as [|a days IH]; [reflexivity|]. destruct days as [|b days]; [reflexivity|].
  change (deltas (at_time off (a :: b :: days))) with ((b * day_ns + off - (a * day_ns + off)) :: deltas (at_time off (b :: days))).
  change (gaps (a :: b :: days)) with ((b - a) :: gaps (b :: days)). cbn [map]. rewrite IH. f_equal. ring.
Qed.
Lemma gaps_length : forall l, length (gaps l) = (length l - 1)%nat.
Proof. induction l as [|a l IH]; [reflexivity|]. destruct l as [|b l]; [reflexivity|]. cbn [gaps length] in *. rewrite IH. lia. Qed.
Lemma count_delta_gaps : forall k l, count_delta (k * day_ns) (map (fun g => g * day_ns) l) = length (filter (Z.eqb k) l).
Proof.
  intros k. unfold count_delta. induction l as [|g l IH]; [reflexivity|]. cbn [map filter].
  replace (k * day_ns =? g * day_ns) with (k =? g).
  - destruct (k =? g); cbn [length]; rewrite IH; reflexivity.
  - unfold day_ns. destruct (Z.eqb_spec k g), (Z.eqb_spec (k * 86400000000000) (g * 86400000000000)); auto; lia.
Qed.
Lemma weekday_filter_gaps : forall l,
  length (filter (fun d => (d / day_ns =? 1) || (d / day_ns =? 3)) (map (fun g => g * day_ns) l)) = length (filter (fun g => (g =? 1) || (g =? 3)) l).
Proof.
  induction l as [|g l IH]; [reflexivity|]. cbn [map filter]. rewrite Z.div_mul by (unfold day_ns; lia).
  destruct ((g =? 1) || (g =? 3)); cbn [length]; rewrite IH; reflexivity.
Qed.

(** steps of one to seven days: no calendar code *)
Lemma short_steps_sparse : forall days f, (forall a b, f a = true -> f b = true -> a < b -> a + 28 <= b) ->
  (forall g, In g (gaps days) -> 1 <= g <= 7) -> sparse 4 f days.
Proof.
  intros days f Hf Hg i j a b Hi Hj Ha Hb Hij.
  assert (K : forall l i j a b, (forall g, In g (gaps l) -> 1 <= g <= 7) -> nth_error l i = Some a -> nth_error l j = Some b -> (i < j)%nat ->
     a < b <= a + 7 * Z.of_nat (j - i)).
  { clear. induction l as [|x l IH]; intros i j a b Hg Hi Hj Hij; [destruct i; discriminate|].
    destruct l as [|y l]; [destruct j as [|[|j]]; [lia|discriminate|discriminate]|].
    assert (Hg' : forall g, In g (gaps (y :: l)) -> 1 <= g <= 7) by (intros g H; apply Hg; right; exact H).
    assert (Hxy : 1 <= y - x <= 7) by (apply Hg; left; reflexivity).
    destruct j as [|j]; [lia|]. destruct i as [|i].
    - cbn in Hi. injection Hi as <-. destruct j as [|j].
      + cbn in Hj. injection Hj as <-. lia.
      + specialize (IH O (S j) y b Hg' eq_refl Hj ltac:(lia)). lia.
    - specialize (IH i j a b Hg' Hi Hj ltac:(lia)). replace (S j - S i)%nat with (j - i)%nat by lia. exact IH. }
  specialize (K _ _ _ _ _ Hg Hi Hj Hij). specialize (Hf _ _ Ha Hb ltac:(lia)). lia.
Qed.
Lemma sparse4_not_almost : forall (f : Z -> bool) days, sparse 4 f days -> almost_all (length (filter f days)) (length days) = false.
Proof.
  intros f days H. apply sparse_count in H; [|lia]. apply not_true_is_false. rewrite almost_all_spec.
  pose proof (filter_length_le _ f days). lia.
Qed.
Lemma short_steps_no_calendar : forall days, (forall g, In g (gaps days) -> 1 <= g <= 7) ->
  forall f, In f [fye; fys; fqe; fqs; fme; fms] -> almost_all (length (filter f days)) (length days) = false.
Proof.
  intros days Hg f Hf. apply sparse4_not_almost, short_steps_sparse; [|exact Hg].
  assert (Hm : (forall n, f n = true -> fme n = true) \/ (forall n, f n = true -> fms n = true)).
  { cbn in Hf. destruct Hf as [<-|[<-|[<-|[<-|[<-|[<-|[]]]]]]]; auto using fqe_me, fqs_ms, fye_qe, fys_qs. }
  assert (Eme : forall n, fme n = true -> me n) by (intros n; unfold fme, me; destruct (civil n) as [[y m] d]; apply Z.eqb_eq).
  assert (Ems : forall n, fms n = true -> ms n) by (intros n; unfold fms, ms; destruct (civil n) as [[y m] d]; apply Z.eqb_eq).
  intros a b Ha Hb Hab. destruct Hm as [Hm|Hm]; [apply me_gap|apply ms_gap]; auto.
Qed.

Lemma short_steps_freq : forall off days, 0 <= off < day_ns -> (3 <= length days)%nat -> (forall g, In g (gaps days) -> 1 <= g <= 7) ->
  time_series_freq (TsIndex (at_time off days)) =
  let m := (length days - 1)%nat in
  if Nat.leb (m - length (filter (Z.eqb 1) (gaps days))) 2 then Some "D"%string
  else if Nat.leb (9 * m) (10 * length (filter (fun g => (g =? 1) || (g =? 3))%Z (gaps days))) then Some "B"%string
  else if almost_all (length (filter (Z.eqb 7) (gaps days))) m then Some "W"%string
  else None.
Proof.
  intros off days Ho Hl Hg. rewrite freq_at by auto. cbv zeta. rewrite deltas_at, map_length, gaps_length.
  destruct (Nat.ltb_spec (length days - 1) 2); [lia|].
  pose proof (short_steps_no_calendar days Hg) as N. rewrite !N by (cbn; tauto).
  replace day_ns with (1 * day_ns) at 1 by lia. rewrite !count_delta_gaps, weekday_filter_gaps. reflexivity.
Qed.

Lemma filter_all : forall A (f : A -> bool) l, (forall a, In a l -> f a = true) -> filter f l = l.
Proof. induction l as [|a l IH]; intros H; [reflexivity|]. cbn [filter]. rewrite H by (left; auto). f_equal. apply IH. intros b Hb. apply H. right. auto. Qed.
Lemma filter_none : forall A (f : A -> bool) l, (forall a, In a l -> f a = false) -> filter f l = [].
Proof. induction l as [|a l IH]; intros H; [reflexivity|]. cbn [filter]. rewrite H by (left; auto). apply IH. intros b Hb. apply H. right. auto. Qed.

Lemma every_gaps : forall k n0 n g, In g (gaps (every k n0 n)) -> g = k.
Proof.
  intros k n0 n. revert n0. unfold every. induction n as [|n IH]; intros n0 g H; [destruct H|].
  destruct n as [|n]; [destruct H|].
  assert (E : map (fun i => n0 + k * Z.of_nat i) (seq 0 (S (S n))) = n0 :: map (fun i => (n0 + k) + k * Z.of_nat i) (seq 0 (S n))).
  { change (seq 0 (S (S n))) with (0%nat :: seq 1 (S n)). cbn [map]. f_equal; [lia|]. rewrite <- seq_shift, map_map. apply map_ext. intros i. lia. }
  rewrite E in H. assert (E2 : exists t, map (fun i => (n0 + k) + k * Z.of_nat i) (seq 0 (S n)) = (n0 + k) :: t) by (cbn [seq map]; eexists; f_equal; lia).
  destruct E2 as (t & E2). specialize (IH (n0 + k) g). rewrite E2 in *. cbn [gaps In] in H. destruct H as [H|H]; [lia|apply IH; exact H].
Qed.
Lemma every_length : forall k n0 n, length (every k n0 n) = n.
Proof. intros. unfold every. rewrite map_length, seq_length. reflexivity. Qed.

(** Consecutive days are daily. *)
Theorem C78_daily_range : forall off n0 n, 0 <= off < day_ns -> (3 <= n)%nat ->
  time_series_freq (TsIndex (at_time off (every 1 n0 n))) = Some "D"%string.
Proof.
  intros off n0 n Ho Hn. pose proof (every_gaps 1 n0 n) as Hg. rewrite short_steps_freq; [|auto|rewrite every_length; auto|intros g H; apply Hg in H; lia].
  cbv zeta. rewrite filter_all by (intros g H; apply Hg in H; subst; reflexivity). rewrite gaps_length, Nat.sub_diag. reflexivity.
Qed.
Print Assumptions C78_daily_range.

(** Weekly stamps are weekly, but only from four stamps on: three are called daily. *)
Theorem C78_weekly_range : forall off n0 n, 0 <= off < day_ns -> (3 <= n)%nat ->
  time_series_freq (TsIndex (at_time off (every 7 n0 n))) = Some (if Nat.eqb n 3 then "D" else "W")%string.
Proof.
  intros off n0 n Ho Hn. pose proof (every_gaps 7 n0 n) as Hg. rewrite short_steps_freq; [|auto|rewrite every_length; auto|intros g H; apply Hg in H; lia].
  cbv zeta. rewrite every_length.
  rewrite (filter_none _ (Z.eqb 1)) by (intros g H; apply Hg in H; subst; reflexivity).
  rewrite (filter_none _ (fun g => (g =? 1) || (g =? 3))) by (intros g H; apply Hg in H; subst; reflexivity).
  rewrite (filter_all _ (Z.eqb 7)) by (intros g H; apply Hg in H; subst; reflexivity). rewrite gaps_length, every_length. cbn [length].
  destruct (Nat.eqb_spec n 3) as [->|Hne]; [reflexivity|].
  destruct (Nat.leb_spec (n - 1 - 0) 2); [lia|]. destruct (Nat.leb_spec (9 * (n - 1)) (10 * 0)); [lia|].
  rewrite (proj2 (almost_all_spec (n - 1) (n - 1))) by lia. reflexivity.
Qed.
Print Assumptions C78_weekly_range.

Lemma business_gaps : forall n day, (forall g, In g (gaps (business_days n day)) -> g = 1 \/ g = 3)
  /\ length (filter (Z.eqb 1) (gaps (business_days n day))) = (length (gaps (business_days n day)) - weekends (business_days n day))%nat
  /\ (weekends (business_days n day) <= length (gaps (business_days n day)))%nat.
Proof.
  induction n as [|n IH]; intros day; [cbn; split; [tauto|auto]|].
  destruct n as [|n]; [cbn; split; [tauto|auto]|].
  set (d2 := if weekday day =? 4 then day + 3 else day + 1).
  assert (E : business_days (S (S n)) day = day :: business_days (S n) d2) by reflexivity.
  assert (E2 : exists t, business_days (S n) d2 = d2 :: t) by (cbn; eauto).
  destruct (IH d2) as (H1 & H2 & H3). rewrite E. destruct E2 as (t & E2).
  assert (Eg : gaps (day :: business_days (S n) d2) = (d2 - day) :: gaps (business_days (S n) d2)) by (rewrite E2; reflexivity).
  assert (Ew : weekends (day :: business_days (S n) d2) = ((if (weekday day =? 4)%Z then 1 else 0) + weekends (business_days (S n) d2))%nat).
  { unfold weekends. rewrite E2. change (removelast (day :: d2 :: t)) with (day :: removelast (d2 :: t)). cbn [filter].
    destruct (weekday day =? 4); reflexivity. }
  rewrite Eg, Ew. split; [|split].
  - intros g [H|H]; [|apply H1; auto]. subst g. unfold d2. destruct (weekday day =? 4); [right|left]; lia.
  - cbn [filter length]. unfold d2 at 1. destruct (weekday day =? 4).
    + replace (day + 3 - day) with 3 by lia. change (1 =? 3) with false. cbv iota. rewrite H2. lia.
    + replace (day + 1 - day) with 1 by lia. change (1 =? 1) with true. cbn [length]. rewrite H2. lia.
  - cbn [length]. destruct (weekday day =? 4); lia.
Qed.
Lemma business_length : forall n day, length (business_days n day) = n.
Proof. induction n as [|n IH]; intros day; [reflexivity|]. cbn [business_days length]. rewrite IH. reflexivity. Qed.

(** Consecutive business days are B only when the range contains at least three weekends; otherwise they are called daily. *)
Theorem C78_business_range : forall off day n, 0 <= off < day_ns -> (3 <= n)%nat ->
  time_series_freq (TsIndex (at_time off (business_days n day)))
  = Some (if Nat.leb (weekends (business_days n day)) 2 then "D" else "B")%string.
Proof.
  intros off day n Ho Hn. destruct (business_gaps n day) as (H1 & H2 & H3).
  rewrite short_steps_freq; [|auto|rewrite business_length; auto|intros g H; apply H1 in H; lia].
  cbv zeta. rewrite H2. rewrite gaps_length, business_length in *.
  replace (n - 1 - (n - 1 - weekends (business_days n day)))%nat with (weekends (business_days n day)) by lia.
  destruct (Nat.leb (weekends (business_days n day)) 2); [reflexivity|].
  rewrite (filter_all _ (fun g => (g =? 1) || (g =? 3))) by (intros g H; apply H1 in H; destruct H as [->| ->]; reflexivity).
  rewrite gaps_length, business_length. destruct (Nat.leb_spec (9 * (n - 1)) (10 * (n - 1))); [reflexivity|lia].
Qed.
Print Assumptions C78_business_range.

(** The docstring example (business days of 2022-01-01 .. 2022-01-15, documented as 'B') is called daily. *)
Theorem C78_docstring_example_refuted : exists days,
  (forall n, In n days <-> (civil n = (2022, 1, snd (civil n)) /\ snd (civil n) <= 15 /\ weekday n <= 4))
  /\ time_series_freq (TsIndex (at_time 0 days)) = Some "D"%string.
Proof.
  exists [18995; 18996; 18997; 18998; 18999; 19002; 19003; 19004; 19005; 19006]. split; [|vm_compute; reflexivity].
  assert (C : civil 18993 = (2022, 1, 1)) by (vm_compute; reflexivity).
  intros n. split.
  - intros H. cbn [In] in H.
    repeat (destruct H as [<-|H]; [vm_compute; split; [reflexivity|split; discriminate]|]). destruct H.
  - intros (H1 & H2 & H3). destruct (civil n) as [[y m] d] eqn:E. cbn [snd] in *. injection H1 as -> ->.
    pose proof (civil_valid n) as V. rewrite E in V.
    assert (Hn : n = 18993 + (d - 1)).
    { (* the day number is determined by the date *)
      assert (K : forall a b y m, civil a = (y, m, 1) -> civil b = (y, m, 1) -> a = b).
      { assert (Mono : forall a j, let '(y, m, d) := civil a in let '(y', m', d') := civil (a + Z.of_nat j) in
           12 * y + m <= 12 * y' + m' /\ (12 * y + m = 12 * y' + m' -> d + Z.of_nat j = d')).
        { intros a. induction j as [|j IH].
          - replace (a + Z.of_nat 0) with a by lia. destruct (civil a) as [[y m0] d0]. lia.
          - replace (a + Z.of_nat (S j)) with (a + Z.of_nat j + 1) by lia. rewrite civil_next.
            pose proof (civil_valid (a + Z.of_nat j)) as V'. destruct (civil a) as [[y m0] d0], (civil (a + Z.of_nat j)) as [[y' m'] d'].
            unfold next_day. destruct (Z.ltb_spec d' (days_in_month y' m')); [lia|]. destruct (Z.ltb_spec m' 12); lia. }
        assert (Half : forall a b y m, civil a = (y, m, 1) -> civil b = (y, m, 1) -> a <= b -> a = b).
        { intros a b y m0 Ha Hb Hab. specialize (Mono a (Z.to_nat (b - a))). replace (a + Z.of_nat (Z.to_nat (b - a))) with b in Mono by lia.
          rewrite Ha, Hb in Mono. lia. }
        intros a b y m0 Ha Hb. destruct (Z_le_gt_dec a b) as [H|H]; [eapply Half; eauto|symmetry; eapply Half; eauto; lia]. }
      assert (E1 : civil (n - (d - 1)) = (2022, 1, 1)).
      { assert (Back : forall j, Z.of_nat j < d -> civil (n - Z.of_nat j) = (2022, 1, d - Z.of_nat j)).
        { induction j as [|j IH]; intros Hj; [replace (n - Z.of_nat 0) with n by lia; rewrite E; f_equal; lia|].
          specialize (IH ltac:(lia)). replace (n - Z.of_nat j) with (n - Z.of_nat (S j) + 1) in IH by lia. rewrite civil_next in IH.
          pose proof (civil_valid (n - Z.of_nat (S j))) as V'. destruct (civil (n - Z.of_nat (S j))) as [[y' m'] d']. unfold next_day in IH.
          destruct (Z.ltb_spec d' (days_in_month y' m')); [|destruct (m' <? 12); injection IH; lia].
          injection IH as -> -> Hd. f_equal. lia. }
        specialize (Back (Z.to_nat (d - 1)) ltac:(lia)). replace (Z.of_nat (Z.to_nat (d - 1))) with (d - 1) in Back by lia.
        rewrite Back. f_equal. lia. }
      pose proof (K _ _ _ _ E1 C). lia. }
    subst n. assert (Hd : d = 1 \/ d = 2 \/ d = 3 \/ d = 4 \/ d = 5 \/ d = 6 \/ d = 7 \/ d = 8 \/ d = 9 \/ d = 10 \/ d = 11 \/ d = 12 \/ d = 13 \/ d = 14 \/ d = 15) by lia.
    clear E V H2 C. repeat (destruct Hd as [-> | Hd]; [first [exfalso; revert H3; vm_compute; congruence|vm_compute; tauto]|]). subst d. exfalso. revert H3. vm_compute. congruence.
Qed.
Print Assumptions C78_docstring_example_refuted.

(* ------------------------------------------------------------------ *)
(** *** Month, quarter and year ranges *)

Lemma flag_iff : forall n,
  (fye n = true <-> boundary "YE" (civil n)) /\ (fys n = true <-> boundary "YS" (civil n))
  /\ (fqe n = true <-> boundary "QE" (civil n)) /\ (fqs n = true <-> boundary "QS" (civil n))
  /\ (fme n = true <-> boundary "ME" (civil n)) /\ (fms n = true <-> boundary "MS" (civil n)).
Proof.
  intros n. pose proof (boundary_reflect (n * day_ns + 0)) as R. unfold date in R.
  unfold is_year_end, is_year_start, is_quarter_end, is_quarter_start, is_month_end, is_month_start in R.
  rewrite day_of_at in R by (unfold day_ns; lia). exact R.
Qed.
Lemma flag_month : forall n,
  (fye n = true -> month_number n mod 12 = 0) /\ (fys n = true -> month_number n mod 12 = 1)
  /\ (fqe n = true <-> fme n = true /\ month_number n mod 3 = 0) /\ (fqs n = true <-> fms n = true /\ month_number n mod 3 = 1).
Proof.
  intros n. unfold fye, fys, fqe, fqs, fme, fms, month_number. destruct (civil n) as [[y m] d].
  rewrite !andb_true_iff, !Z.eqb_eq.
  assert (E3 : (12 * y + m) mod 3 = m mod 3) by (replace (12 * y + m) with (m + (4 * y) * 3) by lia; apply Z.mod_add; lia).
  assert (E12 : (12 * y + m) mod 12 = m mod 12) by (replace (12 * y + m) with (m + y * 12) by lia; apply Z.mod_add; lia).
  rewrite E3, E12. split; [intros [-> _]; reflexivity|]. split; [intros [-> _]; reflexivity|]. tauto.
Qed.
Lemma range_sparse : forall code k q days f r, boundary_range code k days -> 0 < k -> (1 <= q)%nat ->
  (forall n, f n = true -> month_number n mod (k * Z.of_nat q) = r) -> sparse q f days.
Proof.
  intros code k q days f r Hr Hk Hq Hf i j a b Hi Hj Ha Hb Hij.
  destruct (Hr _ _ Hi) as [_ Ea]. destruct (Hr _ _ Hj) as [_ Eb]. apply Hf in Ha, Hb.
  set (p := k * Z.of_nat q) in *. assert (Hp : p <> 0) by (unfold p; nia).
  pose proof (Z.div_mod (month_number a) p Hp) as Da. pose proof (Z.div_mod (month_number b) p Hp) as Db.
  assert (E : k * (Z.of_nat j - Z.of_nat i) = p * (month_number b / p - month_number a / p)) by lia.
  set (t := month_number b / p - month_number a / p) in *. unfold p in E.
  assert (E2 : Z.of_nat j - Z.of_nat i = Z.of_nat q * t) by nia. assert (0 < t) by nia. nia.
Qed.
Lemma range_flags : forall code k days f, boundary_range code k days -> (forall n, boundary code (civil n) -> f n = true) -> filter f days = days.
Proof. intros code k days f Hr Hf. apply filter_all. intros n Hn. apply In_nth_error in Hn as (i & Hi). apply Hf. apply (Hr _ _ Hi). Qed.
Lemma range_noflags : forall code k days f, boundary_range code k days -> (forall n, boundary code (civil n) -> f n = false) -> filter f days = [].
Proof. intros code k days f Hr Hf. apply filter_none. intros n Hn. apply In_nth_error in Hn as (i & Hi). apply Hf. apply (Hr _ _ Hi). Qed.
Lemma not_almost_zero : forall n, almost_all 0 n = false.
Proof. intros. apply almost_all_false. lia. Qed.
Lemma all_almost : forall n, (3 <= n)%nat -> almost_all n n = true.
Proof. intros. apply almost_all_spec. lia. Qed.
Lemma deltas_at_length : forall off days, (3 <= length days)%nat -> Nat.ltb (length (deltas (at_time off days))) 2 = false.
Proof. intros. rewrite deltas_at, map_length, gaps_length. apply Nat.ltb_ge. lia. Qed.

(** ends are never starts *)
Lemma end_not_start : forall n, fme n = true -> fms n = false /\ fqs n = false /\ fys n = false.
Proof.
  intros n H. pose proof (fme_not_ms n H) as A. split; [exact A|]. split; apply not_true_is_false; intros B;
    [apply fqs_ms in B|apply fys_qs, fqs_ms in B]; congruence.
Qed.
Lemma start_not_end : forall n, fms n = true -> fme n = false /\ fqe n = false /\ fye n = false.
Proof.
  intros n H. assert (A : fme n = false) by (apply not_true_is_false; intros B; apply fme_not_ms in B; congruence).
  split; [exact A|]. split; apply not_true_is_false; intros B; [apply fqe_me in B|apply fye_qe, fqe_me in B]; congruence.
Qed.

(** two in four consecutive months are quarter ends exactly when the first is *)
Lemma month_quarter : forall (f : Z -> bool) days r, (3 <= length days)%nat ->
  (forall i n, nth_error days i = Some n -> (f n = true <-> (month_number (hd 0%Z days) + Z.of_nat i) mod 3 = r)) -> 0 <= r < 3 ->
  almost_all (length (filter f days)) (length days) = true <-> (length days = 4%nat /\ f (hd 0 days) = true).
Proof.
  intros f days r Hl Hf Hr.
  assert (Sp : sparse 3 f days).
  { intros i j a b Hi Hj Ha Hb Hij. apply (Hf _ _ Hi) in Ha. apply (Hf _ _ Hj) in Hb.
    set (M := month_number (hd 0 days)) in *. pose proof (Z.div_mod (M + Z.of_nat i) 3). pose proof (Z.div_mod (M + Z.of_nat j) 3). lia. }
  split.
  - intros H. apply almost_all_spec in H as [H1 H2]. apply sparse_count in Sp; [|lia].
    assert (Hc : length (filter f days) = 2%nat /\ length days = 4%nat) by lia. destruct Hc as [Hc H4]. split; [exact H4|].
    destruct days as [|a [|b [|c [|d [|e days]]]]]; cbn [length] in H4; try lia. cbn [hd] in *.
    destruct (f a) eqn:Ea; [reflexivity|exfalso].
    set (M := month_number a) in *. cbn [filter] in Hc. rewrite Ea in Hc.
    pose proof (proj1 (Hf 1%nat b eq_refl)) as Hb. pose proof (proj1 (Hf 2%nat c eq_refl)) as Hcc. pose proof (proj1 (Hf 3%nat d eq_refl)) as Hd.
    pose proof (Z.div_mod (M + 1) 3). pose proof (Z.div_mod (M + 2) 3). pose proof (Z.div_mod (M + 3) 3).
    change (Z.of_nat 1) with 1 in *. change (Z.of_nat 2) with 2 in *. change (Z.of_nat 3) with 3 in *.
    destruct (f b), (f c), (f d); cbn [length] in Hc; try lia;
      repeat match goal with X : true = true -> _ |- _ => specialize (X eq_refl) end; lia.
  - intros [H4 Ha]. apply almost_all_spec. destruct days as [|a [|b [|c [|d [|e days]]]]]; cbn [length] in H4; try lia. cbn [hd] in *.
    assert (Hd : f d = true).
    { apply (Hf 3%nat d eq_refl). apply (Hf 0%nat a eq_refl) in Ha. rewrite <- Ha. set (M := month_number a).
      replace (M + Z.of_nat 3) with (M + Z.of_nat 0 + 1 * 3) by lia. apply Z.mod_add. lia. }
    cbn [filter]. rewrite Ha, Hd. cbn [length]. destruct (f b), (f c); cbn [length]; lia.
Qed.

(** Consecutive month ends are month ends, except exactly four of them starting at a quarter end. *)
Theorem C78_month_end_range : forall off days, 0 <= off < day_ns -> (3 <= length days)%nat -> boundary_range "ME" 1 days ->
  (length days = 4%nat /\ boundary "QE" (civil (hd 0 days)) -> time_series_freq (TsIndex (at_time off days)) = Some "QE"%string)
  /\ (~ (length days = 4%nat /\ boundary "QE" (civil (hd 0 days))) -> time_series_freq (TsIndex (at_time off days)) = Some "ME"%string).
Proof.
  intros off days Ho Hl Hr. rewrite freq_at by auto. cbv zeta. rewrite deltas_at_length by auto.
  assert (E : forall n, boundary "ME" (civil n) -> fme n = true) by (intros n; apply flag_iff).
  rewrite (range_flags "ME" 1 days fme) by auto.
  rewrite (range_noflags "ME" 1 days fys), (range_noflags "ME" 1 days fqs) by (auto; intros n H; apply end_not_start; auto).
  rewrite (sparse4_not_almost fye).
  2:{ intros i j a b Hi Hj Ha Hb Hij. assert (i + 12 <= j)%nat; [|lia].
      eapply (range_sparse "ME" 1 12 days fye 0); eauto; try lia. intros n; apply flag_month. }
  cbn [length]. rewrite !not_almost_zero.
  pose proof (month_quarter fqe days 0 Hl) as Q.
  assert (Hq : forall i n, nth_error days i = Some n -> (fqe n = true <-> (month_number (hd 0 days) + Z.of_nat i) mod 3 = 0)).
  { intros i n Hi. destruct (Hr _ _ Hi) as [B M]. apply E in B. destruct (flag_month n) as (_ & _ & F & _). rewrite F, M, Z.mul_1_l. tauto. }
  specialize (Q Hq ltac:(lia)).
  assert (Qb : fqe (hd 0 days) = true <-> boundary "QE" (civil (hd 0 days))) by apply flag_iff. rewrite <- Qb, <- Q.
  rewrite (all_almost (length days)) by auto.
  destruct (almost_all (length (filter fqe days)) (length days)); split; intros H; congruence.
Qed.
Print Assumptions C78_month_end_range.

Theorem C78_month_start_range : forall off days, 0 <= off < day_ns -> (3 <= length days)%nat -> boundary_range "MS" 1 days ->
  (length days = 4%nat /\ boundary "QS" (civil (hd 0 days)) -> time_series_freq (TsIndex (at_time off days)) = Some "QS"%string)
  /\ (~ (length days = 4%nat /\ boundary "QS" (civil (hd 0 days))) -> time_series_freq (TsIndex (at_time off days)) = Some "MS"%string).
Proof.
  intros off days Ho Hl Hr. rewrite freq_at by auto. cbv zeta. rewrite deltas_at_length by auto.
  assert (E : forall n, boundary "MS" (civil n) -> fms n = true) by (intros n; apply flag_iff).
  rewrite (range_flags "MS" 1 days fms) by auto.
  rewrite (range_noflags "MS" 1 days fye), (range_noflags "MS" 1 days fqe), (range_noflags "MS" 1 days fme) by (auto; intros n H; apply start_not_end; auto).
  rewrite (sparse4_not_almost fys).
  2:{ intros i j a b Hi Hj Ha Hb Hij. assert (i + 12 <= j)%nat; [|lia].
      eapply (range_sparse "MS" 1 12 days fys 1); eauto; try lia. intros n; apply flag_month. }
  cbn [length]. rewrite !not_almost_zero.
  pose proof (month_quarter fqs days 1 Hl) as Q.
  assert (Hq : forall i n, nth_error days i = Some n -> (fqs n = true <-> (month_number (hd 0 days) + Z.of_nat i) mod 3 = 1)).
  { intros i n Hi. destruct (Hr _ _ Hi) as [B M]. apply E in B. destruct (flag_month n) as (_ & _ & _ & F). rewrite F, M, Z.mul_1_l. tauto. }
  specialize (Q Hq ltac:(lia)).
  assert (Qb : fqs (hd 0 days) = true <-> boundary "QS" (civil (hd 0 days))) by apply flag_iff. rewrite <- Qb, <- Q.
  rewrite (all_almost (length days)) by auto.
  destruct (almost_all (length (filter fqs days)) (length days)); split; intros H; congruence.
Qed.
Print Assumptions C78_month_start_range.

(** Consecutive quarter ends and starts, year ends and starts are recognised at every length from three on. *)
Theorem C78_quarter_and_year_ranges : forall off days, 0 <= off < day_ns -> (3 <= length days)%nat ->
  (boundary_range "QE" 3 days -> time_series_freq (TsIndex (at_time off days)) = Some "QE"%string)
  /\ (boundary_range "QS" 3 days -> time_series_freq (TsIndex (at_time off days)) = Some "QS"%string)
  /\ (boundary_range "YE" 12 days -> time_series_freq (TsIndex (at_time off days)) = Some "YE"%string)
  /\ (boundary_range "YS" 12 days -> time_series_freq (TsIndex (at_time off days)) = Some "YS"%string).
Proof.
  intros off days Ho Hl. rewrite freq_at by auto. cbv zeta. rewrite deltas_at_length by auto.
  split; [|split; [|split]]; intros Hr.
  - assert (E : forall n, boundary "QE" (civil n) -> fqe n = true) by (intros n; apply flag_iff).
    rewrite (range_flags "QE" 3 days fqe) by auto.
    rewrite (range_noflags "QE" 3 days fys) by (auto; intros n H; apply end_not_start, fqe_me; auto).
    rewrite (sparse4_not_almost fye) by (eapply (range_sparse "QE" 3 4 days fye 0); eauto; try lia; intros n; apply flag_month).
    cbn [length]. rewrite not_almost_zero, all_almost by auto. reflexivity.
  - assert (E : forall n, boundary "QS" (civil n) -> fqs n = true) by (intros n; apply flag_iff).
    rewrite (range_flags "QS" 3 days fqs) by auto.
    rewrite (range_noflags "QS" 3 days fye), (range_noflags "QS" 3 days fqe) by (auto; intros n H; apply start_not_end, fqs_ms; auto).
    rewrite (sparse4_not_almost fys) by (eapply (range_sparse "QS" 3 4 days fys 1); eauto; try lia; intros n; apply flag_month).
    cbn [length]. rewrite !not_almost_zero, all_almost by auto. reflexivity.
  - rewrite (range_flags "YE" 12 days fye) by (auto; intros n; apply flag_iff). rewrite all_almost by auto. reflexivity.
  - assert (E : forall n, boundary "YS" (civil n) -> fys n = true) by (intros n; apply flag_iff).
    rewrite (range_flags "YS" 12 days fys) by auto.
    rewrite (range_noflags "YS" 12 days fye) by (auto; intros n H; apply start_not_end, fqs_ms, fys_qs; auto).
    cbn [length]. rewrite !not_almost_zero, all_almost by auto. reflexivity.
Qed.
Print Assumptions C78_quarter_and_year_ranges.

(** Whatever their spacing, stamps that all fall on 31 December (for instance one day's ticks) are called yearly. *)
Theorem C78_last_day_ticks : forall ix, (3 <= length ix)%nat ->
  (forall s, In s ix -> exists t, s = Some t /\ exists y, date t = (y, 12, 31)) ->
  time_series_freq (TsIndex ix) = Some "YE"%string.
Proof.
  intros ix Hl H. cbn [time_series_freq]. unfold freq_of_index. cbv zeta.
  assert (Hd : length (deltas ix) = (length ix - 1)%nat).
  { clear Hl. induction ix as [|a ix IH]; [reflexivity|]. destruct ix as [|b ix]; [reflexivity|].
    destruct (H a ltac:(left; auto)) as (u & -> & _). destruct (H b ltac:(right; left; auto)) as (v & -> & _).
    change (deltas (Some u :: Some v :: ix)) with ((v - u) :: deltas (Some v :: ix)). cbn [length] in *. rewrite IH by (intros s Hs; apply H; right; auto). lia. }
  assert (Hc : count is_year_end ix = length ix).
  { unfold count. rewrite filter_all; [reflexivity|]. intros s Hs. destruct (H s Hs) as (t & -> & y & E). unfold date in E.
    unfold is_year_end. rewrite E. reflexivity. }
  rewrite Hd, Hc. destruct (Nat.ltb_spec (length ix - 1) 2); [lia|]. rewrite all_almost by auto. reflexivity.
Qed.
Print Assumptions C78_last_day_ticks.

(** Concrete ranges: month ends 2021-12 .. 2022-03 (called quarterly), 2022-01 .. 2022-04 (monthly); quarter ends of 2022. *)
Example C78_example :
  boundary_range "ME" 1 [18992; 19023; 19051; 19082]
  /\ time_series_freq (TsIndex (at_time 5 [18992; 19023; 19051; 19082])) = Some "QE"%string
  /\ time_series_freq (TsIndex (at_time 5 [19023; 19051; 19082; 19112])) = Some "ME"%string
  /\ time_series_freq (TsIndex (at_time 5 [19082; 19173; 19265; 19357])) = Some "QE"%string
  /\ time_series_freq (TsIndex (at_time 0 (business_days 20 18995))) = Some "B"%string
  /\ weekends (business_days 20 18995) = 3%nat.
Proof.
  split; [|repeat split; vm_compute; reflexivity].
  intros i n H. destruct i as [|[|[|[|i]]]]; cbn in H; try (injection H as <-; vm_compute; split; [tauto|reflexivity]). destruct i; discriminate.
Qed.
