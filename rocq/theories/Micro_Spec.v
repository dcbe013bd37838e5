(** Vocabulary for the micro-structure properties. *)
From Coq Require Import Reals List Arith.
From Verif Require Import Base Num Sums.
Import ListNotations.
Open Scope R_scope.

(** high and low prices of every bar are numbers with 0 < low <= high *)
Definition positive_range (h l : list num) : Prop := length l = length h /\ forall i, (i < length h)%nat -> exists a b, nth i h NaN = Fin a /\ nth i l NaN = Fin b /\ 0 < b /\ b <= a.

(** the published spread as a function of the exponent alpha *)
Definition spread_of (a : R) : R := 2 * (exp a - 1) / (exp a + 1).

(** high and low as lists of numbers: the squared range of one bar, the window mean beta and the two-bar range gamma of the publication *)
Definition range_sq (h l : list R) (j : nat) : R := (ln (nth j h 0) - ln (nth j l 0)) * (ln (nth j h 0) - ln (nth j l 0)).

Definition beta_of (h l : list R) (w i : nat) : R := sumn w (fun j => range_sq h l (i - w + j) + range_sq h l (i - w + S j)) / INR w.

Definition gamma_of (h l : list R) (i : nat) : R :=
  let d := ln (Rmax (nth (i - 1) h 0) (nth i h 0)) - ln (Rmin (nth (i - 1) l 0) (nth i l 0)) in d * d.

(** published: alpha = (sqrt(2 beta) - sqrt beta)/(3 - 2 sqrt 2) - sqrt(gamma/(3 - 2 sqrt 2)), negative estimates set to 0 *)
Definition published_alpha (h l : list R) (w i : nat) : R :=
  (sqrt (2 * beta_of h l w i) - sqrt (beta_of h l w i)) / (3 - 2 * sqrt 2) - sqrt (gamma_of h l i / (3 - 2 * sqrt 2)).

Definition coded_alpha (h l : list R) (w i : nat) : R :=
  (sqrt (2 * beta_of h l w i) - sqrt (beta_of h l w i)) / (3 - 2 * sqrt 2) + sqrt (gamma_of h l i / (3 - 2 * sqrt 2)).

Definition ordered_prices (h l : list R) : Prop := length l = length h /\ forall i, (i < length h)%nat -> 0 < nth i l 0 <= nth i h 0.
