(** Properties C36, C37, C78: frequency detection. *)
From Coq Require Import Reals Lra String ZArith List Arith Bool Lia.
From Verif Require Import Base Num Sim_Model Sim_Spec Sim_Proofs Freq_Model Freq_Proofs.
Import ListNotations.
Open Scope Z_scope.

(* ------------------------------------------------------------------ *)
(** ** Specification vocabulary *)

(** date of a stamp *)
Definition date (s : Z) : Z * Z * Z := civil (day_of s).
(** calendar boundaries by their code *)
Definition boundary (code : string) (p : Z * Z * Z) : Prop :=
  let '(y, m, d) := p in
  (code = "YE"%string /\ m = 12 /\ d = 31)
  \/ (code = "YS"%string /\ m = 1 /\ d = 1)
  \/ (code = "QE"%string /\ In m [3; 6; 9; 12] /\ d = days_in_month y m)
  \/ (code = "QS"%string /\ In m [1; 4; 7; 10] /\ d = 1)
  \/ (code = "ME"%string /\ d = days_in_month y m)
  \/ (code = "MS"%string /\ d = 1).
Definition calendar_code (code : string) : Prop := In code ["YE"; "YS"; "QE"; "QS"; "ME"; "MS"]%string.
(** steps between neighbouring stamps (steps from or to NaT do not count) *)
Definition step (ix : list (option Z)) (i : nat) (d : Z) : Prop :=
  exists u v, nth_error ix i = Some (Some u) /\ nth_error ix (S i) = Some (Some v) /\ d = v - u.
(** at most k elements of a list violate P *)
Definition all_but {A} (k : nat) (P : A -> Prop) (l : list A) : Prop :=
  exists good bad, (forall a, In a good -> P a) /\ (length bad <= k)%nat /\ length l = (length good + length bad)%nat
                   /\ (forall a, In a l <-> In a good \/ In a bad).

(* ------------------------------------------------------------------ *)
(** ** Lemmas *)

Lemma count_le : forall f ix, (count f ix <= length ix)%nat.
Proof. intros. unfold count. induction ix as [|a ix IH]; [apply le_n|]. cbn [filter length]. destruct (match a with Some t => f t | None => false end); cbn [length]; lia. Qed.
Lemma filter_length_le : forall A (f : A -> bool) l, (length (filter f l) <= length l)%nat.
Proof. induction l as [|a l IH]; [apply le_n|]. cbn [filter length]. destruct (f a); cbn [length]; lia. Qed.
Lemma almost_all_spec : forall c n, almost_all c n = true <-> (2 <= c /\ n - c <= 2)%nat.
Proof. intros. unfold almost_all. rewrite andb_true_iff, !Nat.leb_le. tauto. Qed.
Lemma almost_all_false : forall c n, (c <= 1)%nat -> almost_all c n = false.
Proof. intros c n H. apply not_true_is_false. rewrite almost_all_spec. lia. Qed.

Lemma filter_split : forall A (f : A -> bool) l,
  length l = (length (filter f l) + length (filter (fun a => negb (f a)) l))%nat
  /\ forall a, In a l <-> In a (filter f l) \/ In a (filter (fun a => negb (f a)) l).
Proof.
  intros A f l. split.
  - induction l as [|a l IH]; [reflexivity|]. cbn [filter length]. destruct (f a); cbn [negb length]; lia.
  - intros a. rewrite !filter_In. destruct (f a); cbn; intuition congruence.
Qed.
Lemma all_but_filter : forall A (f : A -> bool) (P : A -> Prop) l k,
  (forall a, f a = true -> P a) -> (length l - length (filter f l) <= k)%nat -> all_but k P l.
Proof.
  intros A f P l k Hf Hk. destruct (filter_split A f l) as [E1 E2]. exists (filter f l), (filter (fun a => negb (f a)) l).
  split; [intros a Ha; apply filter_In in Ha; apply Hf; tauto|]. split; [lia|]. split; auto.
Qed.

Lemma boundary_reflect : forall s,
  (is_year_end s = true <-> boundary "YE" (date s)) /\ (is_year_start s = true <-> boundary "YS" (date s))
  /\ (is_quarter_end s = true <-> boundary "QE" (date s)) /\ (is_quarter_start s = true <-> boundary "QS" (date s))
  /\ (is_month_end s = true <-> boundary "ME" (date s)) /\ (is_month_start s = true <-> boundary "MS" (date s)).
Proof.
  intros s. unfold is_year_end, is_year_start, is_quarter_end, is_quarter_start, is_month_end, is_month_start, date.
  pose proof (civil_valid (day_of s)) as V. destruct (civil (day_of s)) as [[y m] d]. unfold boundary.
  rewrite !andb_true_iff, !Z.eqb_eq. destruct V as [Vm Vd].
  assert (Hm : m = 1 \/ m = 2 \/ m = 3 \/ m = 4 \/ m = 5 \/ m = 6 \/ m = 7 \/ m = 8 \/ m = 9 \/ m = 10 \/ m = 11 \/ m = 12) by lia.
  assert (M0 : m mod 3 = 0 <-> In m [3; 6; 9; 12]).
  { repeat (destruct Hm as [-> | Hm]; [cbn; split; intros; lia|]). subst m. cbn. split; intros; lia. }
  assert (M1 : m mod 3 = 1 <-> In m [1; 4; 7; 10]).
  { clear M0. repeat (destruct Hm as [-> | Hm]; [cbn; split; intros; lia|]). subst m. cbn. split; intros; lia. }
  rewrite M0, M1. clear Hm M0 M1.
  split; [|split; [|split; [|split; [|split]]]]; (split; intros HH; [tauto|]);
    repeat match goal with X : _ \/ _ |- _ => destruct X as [X|X] end;
    repeat match goal with X : _ /\ _ |- _ => destruct X end; try discriminate; tauto.
Qed.

Lemma deltas_in : forall ix d, In d (deltas ix) <-> exists i, step ix i d.
Proof.
  induction ix as [|a ix IH]; intros d.
  - cbn. split; [tauto|]. intros (i & u & v & H & _). destruct i; discriminate.
  - destruct ix as [|b ix].
    + cbn. split; [tauto|]. intros (i & u & v & H1 & H2 & _). destruct i as [|[|i]]; discriminate.
    + assert (Hstep : (exists i, step (a :: b :: ix) i d) <-> (exists u v, a = Some u /\ b = Some v /\ d = v - u) \/ (exists i, step (b :: ix) i d)).
      { split.
        - intros ([|i] & u & v & H1 & H2 & H3).
          + left. cbn in H1, H2. exists u, v. repeat split; congruence.
          + right. exists i, u, v. auto.
        - intros [(u & v & -> & -> & H)|(i & u & v & H)].
          + exists O, u, v. cbn. auto.
          + exists (S i), u, v. exact H. }
      rewrite Hstep, <- IH. change (deltas (a :: b :: ix)) with (match a, b with Some u, Some v => (v - u) :: deltas (b :: ix) | _, _ => deltas (b :: ix) end).
      destruct a as [u|], b as [v|]; cbn [In].
      * split; [intros [H|H]; [left; exists u, v; auto|auto]|]. intros [(u' & v' & E1 & E2 & H)|H]; [left; congruence|auto].
      * split; [auto|]. intros [(u' & v' & E1 & E2 & H)|H]; [congruence|auto].
      * split; [auto|]. intros [(u' & v' & E1 & E2 & H)|H]; [congruence|auto].
      * split; [auto|]. intros [(u' & v' & E1 & E2 & H)|H]; [congruence|auto].
Qed.

(* ------------------------------------------------------------------ *)
(** ** C36 What a returned code guarantees *)

(** The Gregorian calendar: last days of months, and the day after a day *)
Definition leap_year (y : Z) : Prop := ((4 | y) /\ ~ (100 | y)) \/ (400 | y).
Definition last_of_month (y m d : Z) : Prop :=
  (d = 31 /\ In m [1; 3; 5; 7; 8; 10; 12]) \/ (d = 30 /\ In m [4; 6; 9; 11])
  \/ (m = 2 /\ ((leap_year y /\ d = 29) \/ (~ leap_year y /\ d = 28))).
Definition gregorian_next (p p' : Z * Z * Z) : Prop :=
  let '(y, m, d) := p in
  (last_of_month y m d /\ m = 12 /\ p' = (y + 1, 1, 1)) \/ (last_of_month y m d /\ m < 12 /\ p' = (y, m + 1, 1))
  \/ (~ last_of_month y m d /\ p' = (y, m, d + 1)).
Lemma leap_iff : forall y, leap y = true <-> leap_year y.
Proof.
  intros y. unfold leap, leap_year. rewrite orb_true_iff, andb_true_iff, negb_true_iff, Z.eqb_neq, !Z.eqb_eq.
  rewrite <- !(Z.mod_divide y) by lia. reflexivity.
Qed.
Lemma last_day_iff : forall y m d, 1 <= m <= 12 -> d = days_in_month y m <-> last_of_month y m d.
Proof.
  intros y m d Hm. pose proof (leap_iff y) as L. unfold days_in_month, last_of_month. cbn [In].
  destruct (Z.eqb_spec m 2) as [->|H2].
  - destruct (leap y); [assert (leap_year y) by tauto|assert (~ leap_year y) by (intros Q; apply L in Q; discriminate)]; clear L; split; intros; intuition lia.
  - destruct (Z.eqb_spec m 4), (Z.eqb_spec m 6), (Z.eqb_spec m 9), (Z.eqb_spec m 11); cbn [orb]; split; intros; try lia;
      assert (m = 1 \/ m = 3 \/ m = 5 \/ m = 7 \/ m = 8 \/ m = 10 \/ m = 12) by lia; lia.
Qed.
(** Dates of stamps are those of the Gregorian calendar: stamp 0 is on 1 January 1970, stamps of one day have the same date, the next day has the next date.
    So the boundaries in C36 and C78 are those of the calendar. *)
Theorem C36_dates : date 0 = (1970, 1, 1)
  /\ (forall n s, n * 86400000000000 <= s < (n + 1) * 86400000000000 -> date s = date (n * 86400000000000))
  /\ (forall s, gregorian_next (date s) (date (s + 86400000000000)))
  /\ (forall s, let '(y, m, d) := date s in d = days_in_month y m <-> last_of_month y m d).
Proof.
  split; [reflexivity|]. split; [|split].
  - intros n s H. unfold date, day_of, day_ns. f_equal. rewrite Z.div_mul by lia. symmetry. apply (Z.div_unique_pos _ _ _ (s - n * 86400000000000)); lia.
  - intros s. unfold date, day_of, day_ns. replace (s + 86400000000000) with (s + 1 * 86400000000000) by lia. rewrite Z.div_add by lia. rewrite civil_next.
    pose proof (civil_valid (s / 86400000000000)) as V. destruct (civil (s / 86400000000000)) as [[y m] d]. unfold gregorian_next, next_day. pose proof (last_day_iff y m d ltac:(lia)) as L.
    destruct (Z.ltb_spec d (days_in_month y m)); [right; right; split; [rewrite <- L; lia|reflexivity]|]. assert (E : d = days_in_month y m) by lia.
    destruct (Z.ltb_spec m 12); [right; left|left]; rewrite <- L; repeat split; auto; lia.
  - intros s. unfold date. pose proof (civil_valid (day_of s)) as V. destruct (civil (day_of s)) as [[y m] d]. apply last_day_iff. lia.
Qed.
Print Assumptions C36_dates.
(** 29 February 2000 is the end of a month, 28 February 1900 too *)
Example C36_dates_example : date (11016 * 86400000000000) = (2000, 2, 29) /\ date (-25509 * 86400000000000) = (1900, 2, 28)
  /\ last_of_month 2000 2 29 /\ last_of_month 1900 2 28.
Proof.
  split; [reflexivity|]. split; [reflexivity|]. split; right; right; split; auto.
  - left. split; auto. right. exists 5. reflexivity.
  - right. split; auto. rewrite <- leap_iff. discriminate.
Qed.

(** time_series_freq_to_duration knows exactly the documented codes, each with its length in years. *)
Theorem C36_durations : forall code r, freq_to_duration code = Some r <-> years code r.
Proof. exact years_table. Qed.
Print Assumptions C36_durations.

(** Only the nine documented codes are returned and each has a positive duration, the documented one. *)
Theorem C36_codes : forall x code, time_series_freq x = Some code ->
  In code ["D"; "B"; "W"; "ME"; "MS"; "QE"; "QS"; "YE"; "YS"]%string
  /\ exists r, freq_to_duration code = Some r /\ years code r /\ (0 < r)%R.
Proof.
  assert (K : forall ix code, freq_of_index ix = Some code -> In code ["D"; "B"; "W"; "ME"; "MS"; "QE"; "QS"; "YE"; "YS"]%string).
  { intros ix code H. unfold freq_of_index in H. cbv zeta in H.
    repeat match type of H with (if ?b then _ else _) = _ => destruct b; [first [discriminate|injection H as <-; cbn; tauto]|] end. discriminate. }
  intros x code H. assert (Hin : In code ["D"; "B"; "W"; "ME"; "MS"; "QE"; "QS"; "YE"; "YS"]%string).
  { destruct x; cbn in H; try discriminate; eapply K; eauto. }
  split; [exact Hin|]. cbn [In] in Hin.
  repeat (destruct Hin as [<-|Hin]; [unfold freq_to_duration, duration_table; cbn [find fst String.eqb Ascii.eqb Bool.eqb]; eexists; split; [reflexivity|split; [apply years_table; reflexivity|cbn [snd]; lra]]|]). destruct Hin.
Qed.
Print Assumptions C36_codes.

(** A calendar code: at least two stamps lie on the boundary and at most two do not.
    D: at most two steps are not exactly one day.  W: at least two steps of exactly seven days, at most two others. *)
Theorem C36_calendar_sound : forall ix code, time_series_freq (TsIndex ix) = Some code -> calendar_code code ->
  all_but 2 (fun s => exists t, s = Some t /\ boundary code (date t)) ix
  /\ exists i j s t, i <> j /\ nth_error ix i = Some (Some s) /\ nth_error ix j = Some (Some t)
       /\ boundary code (date s) /\ boundary code (date t).
Proof.
  intros ix code H Hc.
  assert (K : exists f, (forall s, f s = true -> boundary code (date s)) /\ almost_all (count f ix) (length ix) = true).
  { pose proof boundary_reflect as R. cbn [time_series_freq] in H. unfold freq_of_index in H. cbv zeta in H.
    destruct (Nat.ltb _ 2); [discriminate|].
    destruct (almost_all (count is_year_end ix) _) eqn:E1; [injection H as <-; exists is_year_end; split; [intros s; apply R|auto]|].
    destruct (almost_all (count is_year_start ix) _) eqn:E2; [injection H as <-; exists is_year_start; split; [intros s; apply R|auto]|].
    destruct (almost_all (count is_quarter_end ix) _) eqn:E3; [injection H as <-; exists is_quarter_end; split; [intros s; apply R|auto]|].
    destruct (almost_all (count is_quarter_start ix) _) eqn:E4; [injection H as <-; exists is_quarter_start; split; [intros s; apply R|auto]|].
    destruct (almost_all (count is_month_end ix) _) eqn:E5; [injection H as <-; exists is_month_end; split; [intros s; apply R|auto]|].
    destruct (almost_all (count is_month_start ix) _) eqn:E6; [injection H as <-; exists is_month_start; split; [intros s; apply R|auto]|].
    exfalso. unfold calendar_code in Hc. cbn in Hc.
    repeat match type of H with (if ?b then _ else _) = _ => destruct b; [injection H as <-; intuition discriminate|] end. discriminate. }
  destruct K as (f & Hf & Ha). apply almost_all_spec in Ha as [H2 Hn]. unfold count in *.
  set (g := fun s : option Z => match s with Some t => f t | None => false end) in *. split.
  - apply (all_but_filter _ g); [|exact Hn]. intros [t|] Ht; [exists t; auto|discriminate].
  - clear Hn H. induction ix as [|a ix IH]; cbn [filter length] in H2; [lia|].
    destruct (g a) eqn:Ea.
    + cbn [length] in H2. destruct (filter g ix) as [|b l] eqn:Eb; [cbn in H2; lia|].
      assert (Hb : In b (filter g ix)) by (rewrite Eb; left; auto). apply filter_In in Hb as [Hb1 Hb2].
      apply In_nth_error in Hb1 as (j & Hj). destruct a as [s|]; [|discriminate]. destruct b as [t|]; [|discriminate].
      exists O, (S j), s, t. split; [discriminate|]. split; [reflexivity|]. split; [exact Hj|]. split; apply Hf; assumption.
    + destruct (IH H2) as (i & j & s & t & Hij & A & B & C & D). exists (S i), (S j), s, t. split; [congruence|]. auto.
Qed.
Print Assumptions C36_calendar_sound.

Theorem C36_step_sound : forall ix,
  let days k d := d = k * day_ns in
  (time_series_freq (TsIndex ix) = Some "D"%string -> all_but 2 (fun d => days 1 d) (deltas ix))
  /\ (time_series_freq (TsIndex ix) = Some "W"%string -> all_but 2 (fun d => days 7 d) (deltas ix) /\ (3 <= length (deltas ix))%nat)
  /\ (time_series_freq (TsIndex ix) = Some "B"%string ->
        exists good bad, (forall d, In d good -> d / day_ns = 1 \/ d / day_ns = 3)
          /\ (9 * (length good + length bad) <= 10 * length good)%nat
          /\ length (deltas ix) = (length good + length bad)%nat /\ (forall d, In d (deltas ix) <-> In d good \/ In d bad)).
Proof.
  intros ix days.
  assert (D : time_series_freq (TsIndex ix) = Some "D"%string -> (length (deltas ix) - count_delta day_ns (deltas ix) <= 2)%nat).
  { cbn [time_series_freq]. unfold freq_of_index. cbv zeta.
    do 7 match goal with |- (if ?b then _ else _) = _ -> _ => destruct b; [discriminate|] end.
    destruct (Nat.leb_spec (length (deltas ix) - count_delta day_ns (deltas ix)) 2); [auto|].
    destruct (Nat.leb _ _); [discriminate|]. destruct (almost_all _ _); discriminate. }
  assert (W : time_series_freq (TsIndex ix) = Some "W"%string ->
     (2 <= count_delta (7 * day_ns)%Z (deltas ix) /\ length (deltas ix) - count_delta (7 * day_ns)%Z (deltas ix) <= 2 /\ 2 < length (deltas ix) - count_delta day_ns (deltas ix))%nat).
  { cbn [time_series_freq]. unfold freq_of_index. cbv zeta.
    do 7 match goal with |- (if ?b then _ else _) = _ -> _ => destruct b; [discriminate|] end.
    destruct (Nat.leb_spec (length (deltas ix) - count_delta day_ns (deltas ix)) 2); [discriminate|].
    destruct (Nat.leb _ _); [discriminate|]. destruct (almost_all _ _) eqn:E; [|discriminate]. intros _. apply almost_all_spec in E. lia. }
  assert (B : time_series_freq (TsIndex ix) = Some "B"%string ->
     (9 * length (deltas ix) <= 10 * length (filter (fun d => (d / day_ns =? 1) || (d / day_ns =? 3))%Z (deltas ix)))%nat).
  { cbn [time_series_freq]. unfold freq_of_index. cbv zeta.
    do 7 match goal with |- (if ?b then _ else _) = _ -> _ => destruct b; [discriminate|] end.
    destruct (Nat.leb _ 2); [discriminate|]. destruct (Nat.leb_spec (9 * length (deltas ix)) (10 * length (filter (fun d => (d / day_ns =? 1) || (d / day_ns =? 3))%Z (deltas ix)))); [auto|].
    destruct (almost_all _ _); discriminate. }
  split; [|split].
  - intros H. apply (all_but_filter _ (Z.eqb day_ns)); [|exact (D H)]. intros d E. apply Z.eqb_eq in E. unfold days. lia.
  - intros H. destruct (W H) as (W1 & W2 & W3). split; [|lia].
    apply (all_but_filter _ (Z.eqb (7 * day_ns))); [|exact W2]. intros d E. apply Z.eqb_eq in E. unfold days. lia.
  - intros H. specialize (B H). set (f := fun d => (d / day_ns =? 1) || (d / day_ns =? 3)) in *.
    destruct (filter_split Z f (deltas ix)) as [E1 E2]. exists (filter f (deltas ix)), (filter (fun d => negb (f d)) (deltas ix)).
    split; [|split; [lia|auto]]. intros d Hd. apply filter_In in Hd as [_ Hd]. unfold f in Hd. apply orb_prop in Hd as [Hd|Hd]; apply Z.eqb_eq in Hd; auto.
Qed.
Print Assumptions C36_step_sound.

(** The step list is what it says, so the previous theorem is about the index itself. *)
Theorem C36_steps_of_index : forall ix d, In d (deltas ix) <-> exists i, step ix i d.
Proof. exact deltas_in. Qed.
Print Assumptions C36_steps_of_index.

(** Fewer than two steps: no code.  Objects without a date index: no code. *)
Theorem C36_too_short : forall x, x = TsOther \/ x = TsPandasOther \/ (exists ix, (x = TsIndex ix \/ x = TsPandas ix) /\ (length ix <= 2)%nat) ->
  time_series_freq x = None.
Proof.
  intros x [->|[->|(ix & Hx & Hl)]]; auto. assert (E : freq_of_index ix = None).
  { destruct ix as [|a [|b [|c ix]]]; cbn in Hl; try lia; try reflexivity. unfold freq_of_index. destruct a, b; reflexivity. }
  destruct Hx as [->| ->]; exact E.
Qed.
Print Assumptions C36_too_short.

(* ------------------------------------------------------------------ *)
(** ** C37 Three stamps *)

Theorem C37_three_stamps_daily : forall a b c,
  (forall code, calendar_code code -> ~ exists s t, boundary code (date s) /\ boundary code (date t) /\
      ((s = a /\ t = b) \/ (s = a /\ t = c) \/ (s = b /\ t = c))) ->
  time_series_freq (TsIndex [Some a; Some b; Some c]) = Some "D"%string.
Proof.
  intros a b c H. pose proof boundary_reflect as R.
  assert (K : forall code f, calendar_code code -> (forall s, f s = true -> boundary code (date s)) ->
     almost_all (count f [Some a; Some b; Some c]) 3 = false).
  { intros code f Hc Hf. apply almost_all_false. unfold count. cbn [filter].
    destruct (f a) eqn:Ea, (f b) eqn:Eb, (f c) eqn:Ec; cbn [length]; try lia; exfalso; apply (H code Hc).
    - exists a, b. auto 6.
    - exists a, b. auto 6.
    - exists a, c. auto 6.
    - exists b, c. auto 6. }
  cbn [time_series_freq]. unfold freq_of_index. cbv zeta. cbn [deltas length Nat.ltb Nat.leb].
  rewrite (K "YE"%string is_year_end) by (try (intros s; apply R); cbn; tauto).
  rewrite (K "YS"%string is_year_start) by (try (intros s; apply R); cbn; tauto).
  rewrite (K "QE"%string is_quarter_end) by (try (intros s; apply R); cbn; tauto).
  rewrite (K "QS"%string is_quarter_start) by (try (intros s; apply R); cbn; tauto).
  rewrite (K "ME"%string is_month_end) by (try (intros s; apply R); cbn; tauto).
  rewrite (K "MS"%string is_month_start) by (try (intros s; apply R); cbn; tauto).
  destruct (Nat.leb_spec (2 - count_delta day_ns [b - a; c - b]) 2); [reflexivity|lia].
Qed.
Print Assumptions C37_three_stamps_daily.

(** three stamps a week apart *)
Example C37_example : time_series_freq (TsIndex [Some (19000 * day_ns); Some (19007 * day_ns); Some (19014 * day_ns)]) = Some "D"%string
  /\ date (19000 * day_ns) = (2022, 1, 8).
Proof. split; reflexivity. Qed.

