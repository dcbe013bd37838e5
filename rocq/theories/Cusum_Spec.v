(** The cumulated-sum statistic on a list of positive prices. *)
From Coq Require Import Reals List.
From Verif Require Import Base Num Sums.
Open Scope R_scope.

Definition lp (y : list R) (t : nat) : R := ln (nth t y 0).
(** mean of the squared log returns up to row t *)
Definition mean_square (y : list R) (t : nat) : R := sumn t (fun j => (lp y (S j) - lp y j) * (lp y (S j) - lp y j)) / INR t.
(** departure of the log price at t from the one at n, in units of the standard deviation of t - n steps *)
Definition departure (y : list R) (t n : nat) : R := (lp y t - lp y n) / (sqrt (mean_square y t) * sqrt (INR (t - n))).
(** n is the first row before t with the largest departure *)
Definition first_best (y : list R) (t n : nat) : Prop :=
  (n < t)%nat /\ (forall m, (m < t)%nat -> departure y t m <= departure y t n) /\ (forall m, (m < n)%nat -> departure y t m < departure y t n).
