(** Specification for C118: when np.linalg.lstsq gives up the second direction of [x, 1]. *)
From Coq Require Import Reals List.
From Verif Require Import Base Num Sums.
Import ListNotations.
Open Scope R_scope.

(** mean and (population) standard deviation *)
Definition level (x : list R) : R := rmean x.
Definition spread (x : list R) : R := sqrt (rvar 0 x).
(** relative precision of floats times the number of values *)
Definition resolution (x : list R) : R := INR (length x) * / 2 ^ 52.
(** the spread is too small for the level (or too large) to tell the values from a constant (or from multiples of each other) *)
Definition indistinct (x : list R) : Prop :=
  spread x * (1 + resolution x ^ 2) <= resolution x * (level x ^ 2 + spread x ^ 2 + 1).
Definition constant (x : list R) : Prop := forall a b, In a x -> In b x -> a = b.
