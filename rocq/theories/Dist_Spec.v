(** Specification vocabulary for the distance properties, over the real numbers. *)
From Coq Require Import Reals String List Arith Bool.
From Verif Require Import Num.
Import ListNotations.
Open Scope R_scope.

(** the three documented formulas *)
Definition angular (rho : R) : R := sqrt ((1 - rho) / 2).
Definition abs_angular (rho : R) : R := sqrt (1 - Rabs rho).
Definition squared_angular (rho : R) : R := sqrt (1 - rho ^ 2).
Definition formula (method : string) : R -> R :=
  if String.eqb method "angular" then angular else if String.eqb method "abs_angular" then abs_angular else squared_angular.
Definition known_method (method : string) : Prop :=
  method = "angular"%string \/ method = "abs_angular"%string \/ method = "squared_angular"%string.
(** nearest number of [-1, 1] *)
Definition clamp (c : R) : R := Rmax (-1) (Rmin 1 c).

(** Pearson correlation of two vectors of the same length *)
Definition centred (x : list R) (i : nat) : R := nth i x 0 - rmean x.
Definition inner (x y : list R) : R := rsum (map (fun i => centred x i * centred y i) (seq 0 (length x))).
Definition pearson (x y : list R) : R := inner x y / (sqrt (inner x x) * sqrt (inner y y)).
(** the vector takes at least two values *)
Definition varies (x : list R) : Prop := exists a b, In a x /\ In b x /\ a <> b.
