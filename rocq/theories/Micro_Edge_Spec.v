(** The published edge estimator (Ardia, Guidotti, Kroencke 2024) on n consecutive pairs of bars: pair t is bar t and bar t+1 of the window. *)
From Coq Require Import Reals List Bool.
From Verif Require Import Base Num Sums.
Open Scope R_scope.

(** one bar: open, high, low, close *)
Record bar := mkbar { b_o : R; b_h : R; b_l : R; b_c : R }.
Definition is_true (b : bool) : R := if b then 1 else 0.
Definition differ (x y : R) : bool := if Req_EM_T x y then false else true.
Definition average (n : nat) (f : nat -> R) : R := sumn n f / INR n.
Definition pop_variance (n : nat) (f : nat -> R) : R := average n (fun t => (f t - average n f) * (f t - average n f)).

Section Edge.
Variable b : nat -> bar.
Variable n : nat.
Definition mid t := (ln (b_h (b t)) + ln (b_l (b t))) / 2.
(** did anything happen in bar t+1: its range is not a point, or its low is not the previous close *)
Definition moved t : bool := differ (b_h (b (S t))) (b_l (b (S t))) || differ (b_l (b (S t))) (b_c (b t)).
Definition freq (p : nat -> bool) : R := average n (fun t => is_true (p t)).
Definition p_moved := freq moved.
Definition p_open := freq (fun t => differ (b_o (b (S t))) (b_h (b (S t))) && moved t) + freq (fun t => differ (b_o (b (S t))) (b_l (b (S t))) && moved t).
Definition p_close := freq (fun t => differ (b_c (b t)) (b_h (b t)) && moved t) + freq (fun t => differ (b_c (b t)) (b_l (b t)) && moved t).
(** the returns between open, mid-range and the previous close and mid-range *)
Definition r1 t := mid (S t) - ln (b_o (b (S t))).
Definition r2 t := ln (b_o (b (S t))) - mid t.
Definition r3 t := mid (S t) - ln (b_c (b t)).
Definition r4 t := ln (b_c (b t)) - mid t.
Definition r5 t := ln (b_o (b (S t))) - ln (b_c (b t)).
Definition centred (r : nat -> R) t := r t - is_true (moved t) * average n r / p_moved.
Definition x1 t := - 4 / p_open * centred r1 t * r2 t - 4 / p_close * centred r3 t * r4 t.
Definition x2 t := - 4 / p_open * centred r1 t * r5 t - 4 / p_close * centred r5 t * r4 t.
(** the two moment conditions weighted by each other's variance *)
Definition squared_spread : R := (pop_variance n x2 * average n x1 + pop_variance n x1 * average n x2) / (pop_variance n x1 + pop_variance n x2).
End Edge.
