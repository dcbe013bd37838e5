(** Volatility estimators as formulas in the logarithms of the bars. *)
From Coq Require Import Reals List Arith.
From Verif Require Import Base Num Sums Micro_Spec Micro_Edge_Spec.
Open Scope R_scope.

(** mean of f over the w rows that end with row i *)
Definition window_mean (w i : nat) (f : nat -> R) : R := average w (fun j => f (S i - w + j)%nat).
(** sample variance (divisor w - 1) of f over the same rows *)
Definition window_var (w i : nat) (f : nat -> R) : R := sumn w (fun j => (f (S i - w + j)%nat - window_mean w i f) * (f (S i - w + j)%nat - window_mean w i f)) / INR (w - 1).

Section Vol.
Variable b : nat -> bar.
Definition lo j := ln (b_o (b j)).
Definition lh j := ln (b_h (b j)).
Definition ll j := ln (b_l (b j)).
Definition lc j := ln (b_c (b j)).
Definition square (x : R) : R := x * x.
(** ln(high/low)^2 / (4 ln 2) *)
Definition parkinson w i := window_mean w i (fun j => square (lh j - ll j)) / (4 * ln 2).
Definition garman_klass w i := window_mean w i (fun j => 1 / 2 * square (lh j - ll j) - (2 * ln 2 - 1) * square (lc j - lo j)).
Definition rogers_satchell w i := window_mean w i (fun j => (lh j - lc j) * (lh j - lo j) + (ll j - lc j) * (ll j - lo j)).
Definition yz_weight (w : nat) : R := (34 / 100) / (134 / 100 + INR (w + 1) / INR (w - 1)).
(** published: sample variances of the overnight return and of the open-to-close return *)
Definition yang_zhang_published w i := window_var w i (fun j => lo j - lc (j - 1)) + yz_weight w * window_var w i (fun j => lc j - lo j) + (1 - yz_weight w) * rogers_satchell w i.
(** coded: mean squares of the overnight return and of the return since the previous bar's open *)
Definition yang_zhang_coded w i := window_mean w i (fun j => square (lo j - lc (j - 1))) + yz_weight w * window_mean w i (fun j => square (lc j - lo (j - 1))) + (1 - yz_weight w) * rogers_satchell w i.
End Vol.

(** Becker-Parkinson volatility of the publication, negative estimates set to 0 *)
Definition becker_parkinson (h l : list R) (w i : nat) : R :=
  let k2 := sqrt (8 / PI) in
  Rmax 0 ((/ sqrt 2 - 1) * sqrt (beta_of h l w i) / (k2 * (3 - 2 * sqrt 2)) + sqrt (gamma_of h l i / (k2 * k2 * (3 - 2 * sqrt 2)))).
