(** Model of quantfinlib/_datatypes/timeseries.py: frequency detection. *)
From Coq Require Import Reals String ZArith List Arith Bool.
From Verif Require Import Base Num Sim_Model.
Import ListNotations.
Open Scope Z_scope.

(* ------------------------------------------------------------------ *)
(** ** Calendar (contract of pandas.DatetimeIndex date fields, proleptic Gregorian, time zone naive) *)

(** nanoseconds per day *)
Definition day_ns : Z := 86400000000000.
(** day number of a stamp; day 0 is 1970-01-01 *)
Definition day_of (stamp : Z) : Z := stamp / day_ns.

(** (year, month, day) of a day number; checked against the calendar rules in Freq_Proofs.v. *)
Definition civil (n : Z) : Z * Z * Z :=
  let z := n + 719468 in
  let era := z / 146097 in
  let doe := z mod 146097 in
  let yoe := (doe - doe / 1460 + doe / 36524 - doe / 146096) / 365 in
  let doy := doe - (365 * yoe + yoe / 4 - yoe / 100) in
  let mp := (5 * doy + 2) / 153 in
  let d := doy - (153 * mp + 2) / 5 + 1 in
  let m := if mp <? 10 then mp + 3 else mp - 9 in
  (yoe + era * 400 + (if m <=? 2 then 1 else 0), m, d).

Definition leap (y : Z) : bool := ((y mod 4 =? 0) && negb (y mod 100 =? 0)) || (y mod 400 =? 0).
Definition days_in_month (y m : Z) : Z :=
  if m =? 2 then (if leap y then 29 else 28)
  else if (m =? 4) || (m =? 6) || (m =? 9) || (m =? 11) then 30 else 31.

(** DatetimeIndex.is_month_end, ... for an index without freq attribute. *)
Definition is_month_end (s : Z) : bool := let '(y, m, d) := civil (day_of s) in d =? days_in_month y m.
Definition is_month_start (s : Z) : bool := let '(y, m, d) := civil (day_of s) in d =? 1.
Definition is_quarter_end (s : Z) : bool := let '(y, m, d) := civil (day_of s) in (m mod 3 =? 0) && (d =? days_in_month y m).
Definition is_quarter_start (s : Z) : bool := let '(y, m, d) := civil (day_of s) in (m mod 3 =? 1) && (d =? 1).
Definition is_year_end (s : Z) : bool := let '(y, m, d) := civil (day_of s) in (m =? 12) && (d =? 31).
Definition is_year_start (s : Z) : bool := let '(y, m, d) := civil (day_of s) in (m =? 1) && (d =? 1).

(* ------------------------------------------------------------------ *)
(** ** time_series_freq *)

(** Stamps of an index; None is NaT. *)
Definition count (f : Z -> bool) (ix : list (option Z)) : nat :=
  length (filter (fun s => match s with Some t => f t | None => false end) ix).

(** line 72: index.to_series().diff().dropna() *)
Fixpoint deltas (ix : list (option Z)) : list Z :=
  match ix with
  | a :: ((b :: _) as t) => match a, b with Some u, Some v => (v - u) :: deltas t | _, _ => deltas t end
  | _ => []
  end.

Definition count_delta (d : Z) (l : list Z) : nat := length (filter (Z.eqb d) l).

(** lines 83, 88, ...: count >= 2 and len - count <= 2 *)
Definition almost_all (c n : nat) : bool := Nat.leb 2 c && Nat.leb (n - c) 2.

(** timeseries.py 71-128, on the stamps of the index.  The test len(weekday)/len(all) >= 0.9 is exact in doubles for fewer
    than 10^14 stamps and written in integers. *)
Definition freq_of_index (ix : list (option Z)) : option string :=
  let td := deltas ix in
  let n := length ix in
  let m := length td in
  if Nat.ltb m 2 then None
  else if almost_all (count is_year_end ix) n then Some "YE"%string
  else if almost_all (count is_year_start ix) n then Some "YS"%string
  else if almost_all (count is_quarter_end ix) n then Some "QE"%string
  else if almost_all (count is_quarter_start ix) n then Some "QS"%string
  else if almost_all (count is_month_end ix) n then Some "ME"%string
  else if almost_all (count is_month_start ix) n then Some "MS"%string
  else if Nat.leb (m - count_delta day_ns td) 2 then Some "D"%string
  else if Nat.leb (9 * m) (10 * length (filter (fun d => (d / day_ns =? 1) || (d / day_ns =? 3)) td)) then Some "B"%string
  else if almost_all (count_delta (7 * day_ns) td) m then Some "W"%string
  else None.

(** What the function is given: a pandas object with a DatetimeIndex, a DatetimeIndex, or something else. *)
Inductive ts_obj := TsIndex (ix : list (option Z)) | TsPandas (ix : list (option Z)) | TsPandasOther | TsOther.

(** timeseries.py 6-128 time_series_freq. *)
Definition time_series_freq (x : ts_obj) : option string :=
  match x with
  | TsOther | TsPandasOther => None
  | TsPandas ix | TsIndex ix => freq_of_index ix
  end.
