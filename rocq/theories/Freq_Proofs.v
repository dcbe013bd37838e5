(** Calendar lemmas. *)
From Coq Require Import Reals String ZArith List Arith Bool Lia.
From Verif Require Import Base Num Sim_Model Freq_Model.
Import ListNotations.
Open Scope Z_scope.

(** The calendar rule, independent of [civil]: the date after a date. *)
Definition next_day (p : Z * Z * Z) : Z * Z * Z :=
  let '(y, m, d) := p in
  if d <? days_in_month y m then (y, m, d + 1)
  else if m <? 12 then (y, m + 1, 1)
  else (y + 1, 1, 1).

(** [civil] inside one 400 year cycle that starts on 1 March of year 0 *)
Definition civil0 (doe : Z) : Z * Z * Z :=
  let yoe := (doe - doe / 1460 + doe / 36524 - doe / 146096) / 365 in
  let doy := doe - (365 * yoe + yoe / 4 - yoe / 100) in
  let mp := (5 * doy + 2) / 153 in
  let d := doy - (153 * mp + 2) / 5 + 1 in
  let m := if mp <? 10 then mp + 3 else mp - 9 in
  (yoe + (if m <=? 2 then 1 else 0), m, d).
Definition shift (k : Z) (p : Z * Z * Z) : Z * Z * Z := let '(y, m, d) := p in (y + 400 * k, m, d).

Lemma civil_shift : forall n, civil n = shift ((n + 719468) / 146097) (civil0 ((n + 719468) mod 146097)).
Proof.
  intros n. unfold civil, civil0, shift. cbv zeta. f_equal. f_equal. ring.
Qed.

Lemma leap_shift : forall y k, leap (y + 400 * k) = leap y.
Proof.
  intros y k. unfold leap.
  replace (y + 400 * k) with (y + (100 * k) * 4) at 1 by ring. rewrite Z.mod_add by lia.
  replace (y + 400 * k) with (y + (4 * k) * 100) at 1 by ring. rewrite Z.mod_add by lia.
  replace (y + 400 * k) with (y + k * 400) by ring. rewrite Z.mod_add by lia. reflexivity.
Qed.
Lemma dim_shift : forall y k m, days_in_month (y + 400 * k) m = days_in_month y m.
Proof. intros. unfold days_in_month. rewrite leap_shift. reflexivity. Qed.
Lemma next_shift : forall k p, next_day (shift k p) = shift k (next_day p).
Proof.
  intros k [[y m] d]. unfold shift, next_day. rewrite dim_shift. destruct (d <? days_in_month y m); [reflexivity|].
  destruct (m <? 12); [reflexivity|]. f_equal. f_equal. ring.
Qed.

(** The cycle is cut into 400 years that start on 1 March; finite checks are made per year and per day of the year. *)
Definition yoe_of (doe : Z) : Z := (doe - doe / 1460 + doe / 36524 - doe / 146096) / 365.
Definition start (y : Z) : Z := 365 * y + y / 4 - y / 100.
Definition mp_of (doy : Z) : Z := (5 * doy + 2) / 153.
Definition m_of (doy : Z) : Z := if mp_of doy <? 10 then mp_of doy + 3 else mp_of doy - 9.
Definition d_of (doy : Z) : Z := doy - (153 * mp_of doy + 2) / 5 + 1.
Definition ylen (y : Z) : Z := (if y =? 399 then 146097 else start (y + 1)) - start y.

Fixpoint upto (n : nat) (z : Z) (f : Z -> bool) : bool := match n with O => true | S n' => f z && upto n' (z + 1) f end.
Lemma upto_spec : forall n z f, upto n z f = true -> forall w, z <= w < z + Z.of_nat n -> f w = true.
Proof.
  induction n as [|n IH]; intros z f H w Hw; [lia|]. cbn [upto] in H. apply andb_prop in H as [H1 H2].
  destruct (Z.eq_dec w z) as [->|Hne]; [exact H1|]. apply (IH (z + 1) f H2). lia.
Qed.
Definition year_check (y : Z) : bool :=
  (yoe_of (start y) =? y) && (yoe_of (start y + ylen y - 1) =? y) && (0 <=? start y) && (start y + ylen y <=? 146097)
  && (ylen y =? (if leap (y + 1) then 366 else 365)).
Lemma year_ok : forall y, 0 <= y < 400 -> year_check y = true.
Proof. apply (upto_spec 400 0). vm_compute. reflexivity. Qed.
Definition day_check (t : Z) : bool :=
  let m := m_of t in let d := d_of t in
  (1 <=? m) && (m <=? 12) && (1 <=? d) && (d <=? 31)
  && (if m =? 2 then d =? t - 336 else d <=? days_in_month 0 m)
  && (if t =? 365 then true
      else if m =? 2 then (m_of (t + 1) =? 2) && (d_of (t + 1) =? d + 1)
      else if d <? days_in_month 0 m then (m_of (t + 1) =? m) && (d_of (t + 1) =? d + 1)
      else (m_of (t + 1) =? (if m <? 12 then m + 1 else 1)) && (d_of (t + 1) =? 1)).
Lemma day_ok : forall t, 0 <= t < 366 -> day_check t = true.
Proof. apply (upto_spec 366 0). vm_compute. reflexivity. Qed.

Lemma dim_any_year : forall y y' m, m <> 2 -> days_in_month y m = days_in_month y' m.
Proof. intros y y' m H. unfold days_in_month. destruct (Z.eqb_spec m 2); [lia|reflexivity]. Qed.

Lemma yoe_mono1 : forall d, 0 <= d < 146096 -> d - d / 1460 + d / 36524 - d / 146096 <= (d + 1) - (d + 1) / 1460 + (d + 1) / 36524 - (d + 1) / 146096.
Proof.
  intros d Hd. assert (E0 : d / 146096 = 0) by (apply Z.div_small; lia).
  destruct (Z.eq_dec d 146095) as [->|Hne]; [vm_compute; discriminate|].
  assert (E1 : (d + 1) / 146096 = 0) by (apply Z.div_small; lia). rewrite E0, E1.
  assert (A : d / 36524 <= (d + 1) / 36524) by (apply Z.div_le_mono; lia).
  assert (B : (d + 1) / 1460 <= d / 1460 + 1) by (replace (d / 1460 + 1) with ((d + 1 * 1460) / 1460) by (rewrite Z.div_add; lia); apply Z.div_le_mono; lia).
  lia.
Qed.
Lemma yoe_mono : forall a b, 0 <= a <= b -> b < 146097 -> yoe_of a <= yoe_of b.
Proof.
  intros a b Hab Hb. replace b with (a + Z.of_nat (Z.to_nat (b - a))) by lia.
  assert (K : forall k, a + Z.of_nat k < 146097 ->
     a - a / 1460 + a / 36524 - a / 146096 <= (a + Z.of_nat k) - (a + Z.of_nat k) / 1460 + (a + Z.of_nat k) / 36524 - (a + Z.of_nat k) / 146096).
  { induction k as [|k IH]; intros Hk; [rewrite Z.add_0_r; lia|]. specialize (IH ltac:(lia)).
    pose proof (yoe_mono1 (a + Z.of_nat k) ltac:(lia)) as M. replace (a + Z.of_nat (S k)) with (a + Z.of_nat k + 1) by lia. lia. }
  unfold yoe_of. apply Z.div_le_mono; [lia|]. apply K. lia.
Qed.

(** every day of the cycle lies in one of the years *)
Lemma locate : forall z, 0 <= z < 146097 -> exists y t, 0 <= y < 400 /\ 0 <= t < ylen y /\ z = start y + t.
Proof.
  intros z Hz.
  assert (K : forall n, (n <= 400)%nat -> (exists y t, 0 <= y < 400 /\ 0 <= t < ylen y /\ z = start y + t) \/ (if Nat.eqb n 400 then 146097 else start (Z.of_nat n)) <= z).
  { induction n as [|n IH]; intros Hn; [right; cbn; lia|]. destruct (IH ltac:(lia)) as [H|H]; [left; exact H|].
    destruct (Nat.eqb_spec n 400); [lia|].
    assert (E : start (Z.of_nat n) + ylen (Z.of_nat n) = if Nat.eqb (S n) 400 then 146097 else start (Z.of_nat (S n))).
    { unfold ylen. destruct (Nat.eqb_spec (S n) 400); destruct (Z.eqb_spec (Z.of_nat n) 399); try lia.
      replace (Z.of_nat (S n)) with (Z.of_nat n + 1) by lia. lia. }
    rewrite <- E. destruct (Z_lt_le_dec z (start (Z.of_nat n) + ylen (Z.of_nat n))) as [Hlt|Hge]; [left|right; exact Hge].
    exists (Z.of_nat n), (z - start (Z.of_nat n)). lia. }
  destruct (K 400%nat (le_n _)) as [H|H]; [exact H|]. cbn in H. lia.
Qed.
Lemma civil0_at : forall y t, 0 <= y < 400 -> 0 <= t < ylen y ->
  civil0 (start y + t) = (y + (if m_of t <=? 2 then 1 else 0), m_of t, d_of t) /\ ylen y = (if leap (y + 1) then 366 else 365) /\ 0 <= start y /\ start y + ylen y <= 146097.
Proof.
  intros y t Hy Ht. pose proof (year_ok y Hy) as C. unfold year_check in C.
  apply andb_prop in C as [C C5]. apply andb_prop in C as [C C4]. apply andb_prop in C as [C C3]. apply andb_prop in C as [C1 C2].
  apply Z.eqb_eq in C1, C2, C5. apply Z.leb_le in C3, C4. split; [|auto].
  assert (E : yoe_of (start y + t) = y).
  { pose proof (yoe_mono (start y) (start y + t) ltac:(lia) ltac:(lia)).
    pose proof (yoe_mono (start y + t) (start y + ylen y - 1) ltac:(lia) ltac:(lia)). lia. }
  unfold civil0. cbv zeta. fold (yoe_of (start y + t)). rewrite E. fold (start y).
  replace (start y + t - start y) with t by ring. reflexivity.
Qed.

Lemma civil0_ok : forall z, 0 <= z < 146097 -> let '(y, m, d) := civil0 z in 1 <= m <= 12 /\ 1 <= d <= days_in_month y m.
Proof.
  intros z Hz. destruct (locate z Hz) as (y & t & Hy & Ht & ->). destruct (civil0_at y t Hy Ht) as (E & L & _). rewrite E.
  assert (Ht2 : 0 <= t < 366) by (destruct (leap (y + 1)); lia).
  pose proof (day_ok t Ht2) as C. unfold day_check in C. cbv zeta in C.
  apply andb_prop in C as [C _]. apply andb_prop in C as [C C5]. apply andb_prop in C as [C C4]. apply andb_prop in C as [C C3]. apply andb_prop in C as [C1 C2].
  apply Z.leb_le in C1, C2, C3, C4. split; [lia|]. split; [lia|].
  destruct (Z.eqb_spec (m_of t) 2) as [Em|Em].
  - apply Z.eqb_eq in C5. rewrite Em. cbn [Z.leb Z.compare Pos.compare Pos.compare_cont]. unfold days_in_month. cbn [Z.eqb Pos.eqb].
    destruct (leap (y + 1)); lia.
  - apply Z.leb_le in C5. rewrite (dim_any_year _ 0) by auto. exact C5.
Qed.
Lemma civil0_next : forall z, 0 <= z -> z + 1 < 146097 -> civil0 (z + 1) = next_day (civil0 z).
Proof.
  intros z Hz Hz'. destruct (locate z ltac:(lia)) as (y & t & Hy & Ht & ->). destruct (civil0_at y t Hy Ht) as (E & L & S0 & S1). rewrite E.
  assert (Ht2 : 0 <= t < 366) by (destruct (leap (y + 1)); lia).
  pose proof (day_ok t Ht2) as C. unfold day_check in C. cbv zeta in C.
  apply andb_prop in C as [C C6]. apply andb_prop in C as [C C5]. apply andb_prop in C as [C C4]. apply andb_prop in C as [C C3]. apply andb_prop in C as [C1 C2].
  apply Z.leb_le in C1, C2, C3, C4. unfold next_day.
  destruct (Z.eq_dec (t + 1) (ylen y)) as [El|El].
  - (* last day of February *)
    assert (Hy' : y <> 399) by (intros ->; unfold ylen in El; cbn [Z.eqb Pos.eqb] in El; lia).
    assert (Est : start y + t + 1 = start (y + 1) + 0) by (unfold ylen in El; destruct (Z.eqb_spec y 399); lia).
    assert (Hl : 0 <= 0 < ylen (y + 1)).
    { pose proof (year_ok (y + 1) ltac:(lia)) as C. unfold year_check in C. apply andb_prop in C as [_ C]. apply Z.eqb_eq in C. destruct (leap (y + 1 + 1)); lia. }
    rewrite Est. destruct (civil0_at (y + 1) 0 ltac:(lia) Hl) as (E' & _). rewrite E'. change (m_of 0) with 3. change (d_of 0) with 1.
    assert (Em : m_of t = 2 /\ d_of t = t - 336).
    { rewrite L in El. destruct (leap (y + 1)); [replace t with 365 by lia|replace t with 364 by lia]; split; reflexivity. }
    destruct Em as [Em Ed]. rewrite Em, Ed. change (2 <=? 2) with true. cbv iota. change (2 <? 12) with true. cbv iota.
    unfold days_in_month. change (2 =? 2) with true. cbv iota.
    destruct (leap (y + 1)).
    + destruct (Z.ltb_spec (t - 336) 29); [lia|]. change (3 <=? 2) with false. cbv iota. rewrite Z.add_0_r. reflexivity.
    + destruct (Z.ltb_spec (t - 336) 28); [lia|]. change (3 <=? 2) with false. cbv iota. rewrite Z.add_0_r. reflexivity.
  - replace (start y + t + 1) with (start y + (t + 1)) by ring. destruct (civil0_at y (t + 1) Hy ltac:(lia)) as (E' & _). rewrite E'.
    destruct (Z.eqb_spec t 365) as [->|Hn]; [destruct (leap (y + 1)); lia|].
    destruct (Z.eqb_spec (m_of t) 2) as [Em|Em].
    + apply andb_prop in C6 as [C6 C7]. apply Z.eqb_eq in C5, C6, C7. rewrite Em, C6, C7, C5. change (2 <=? 2) with true. cbv iota.
      unfold days_in_month. change (2 =? 2) with true. cbv iota.
      destruct (leap (y + 1)); [destruct (Z.ltb_spec (t - 336) 29)|destruct (Z.ltb_spec (t - 336) 28)]; try reflexivity; lia.
    + rewrite (dim_any_year (y + (if m_of t <=? 2 then 1 else 0)) 0) by auto.
      destruct (d_of t <? days_in_month 0 (m_of t)).
      * apply andb_prop in C6 as [C6 C7]. apply Z.eqb_eq in C6, C7. rewrite C6, C7. reflexivity.
      * apply andb_prop in C6 as [C6 C7]. apply Z.eqb_eq in C6, C7. rewrite C6, C7.
        destruct (Z.ltb_spec (m_of t) 12) as [H12|H12].
        { replace (m_of t + 1 <=? 2) with (m_of t <=? 2); [reflexivity|]. destruct (Z.leb_spec (m_of t) 2), (Z.leb_spec (m_of t + 1) 2); auto; lia. }
        { change (1 <=? 2) with true. cbv iota. destruct (Z.leb_spec (m_of t) 2); [lia|]. rewrite Z.add_0_r. reflexivity. }
Qed.

(** [civil] follows the calendar: day 0 is 1970-01-01 and each day is followed by the next date. *)
Theorem civil_epoch : civil 0 = (1970, 1, 1).
Proof. reflexivity. Qed.
Theorem civil_next : forall n, civil (n + 1) = next_day (civil n).
Proof.
  intros n. rewrite !civil_shift. set (z := n + 719468). replace (n + 1 + 719468) with (z + 1) by (unfold z; ring).
  pose proof (Z.div_mod z 146097 ltac:(lia)) as E. pose proof (Z.mod_pos_bound z 146097 ltac:(lia)) as B.
  set (q := z / 146097) in *. set (r := z mod 146097) in *.
  destruct (Z.eq_dec r 146096) as [Hr|Hr].
  - assert (E1 : (z + 1) / 146097 = q + 1) by (symmetry; apply (Z.div_unique _ _ _ 0); lia).
    assert (E2 : (z + 1) mod 146097 = 0) by (symmetry; apply (Z.mod_unique _ _ (q + 1)); lia).
    rewrite E1, E2, Hr, next_shift. change (next_day (civil0 146096)) with (400, 3, 1). change (civil0 0) with (0, 3, 1).
    unfold shift. f_equal. f_equal. ring.
  - assert (E1 : (z + 1) / 146097 = q) by (symmetry; apply (Z.div_unique _ _ _ (r + 1)); lia).
    assert (E2 : (z + 1) mod 146097 = r + 1) by (symmetry; apply (Z.mod_unique _ _ q); lia).
    rewrite E1, E2, next_shift. rewrite civil0_next by lia. reflexivity.
Qed.
Theorem civil_valid : forall n, let '(y, m, d) := civil n in 1 <= m <= 12 /\ 1 <= d <= days_in_month y m.
Proof.
  intros n. rewrite civil_shift. pose proof (Z.mod_pos_bound (n + 719468) 146097 ltac:(lia)) as B.
  pose proof (civil0_ok _ B) as H. destruct (civil0 ((n + 719468) mod 146097)) as [[y m] d]. unfold shift. rewrite dim_shift. exact H.
Qed.

Lemma dim_bounds : forall y m, 28 <= days_in_month y m <= 31.
Proof.
  intros. unfold days_in_month. destruct (m =? 2); [destruct (leap y); lia|]. destruct (_ || _); lia.
Qed.
