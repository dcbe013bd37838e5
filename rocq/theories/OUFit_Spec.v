(** Vocabulary of C103: the line fitted to the points (x[t], x[t+1]) of a series, and the parameters read off it. *)
From Coq Require Import Reals List Arith.
From Verif Require Import Base Num Sim_Model Sim_Spec Sim_OU_Props.
Import ListNotations.
Open Scope R_scope.

(** smallest squared error and, among the lines with that error, smallest coefficients *)
Definition best_line (s i : R) (pts : list (R * R)) : Prop :=
  (forall a b, sq_error s i pts <= sq_error a b pts)
  /\ (forall a b, sq_error a b pts = sq_error s i pts -> s ^ 2 + i ^ 2 <= a ^ 2 + b ^ 2).

(** The line used for the parameters: the best one; when its slope is at most 1e-8, the one of slope 1e-8 through the mean
    of x[1:] at 0. *)
Definition used_line (x : list R) (s i : R) : Prop :=
  exists s0 i0, best_line s0 i0 (lagged x)
  /\ ((1 / 100000000 < s0 /\ s = s0 /\ i = i0) \/ (s0 <= 1 / 100000000 /\ s = 1 / 100000000 /\ i = rmean (tl x))).

(** mean, mean reversion rate and volatility of the line x[t+1] = s x[t] + i + residual, of residual variance v *)
Definition line_mean (s i : R) : num := if reqb s 1 then (if rltb 0 i then PInf else if rltb i 0 then NInf else NaN) else Fin (i / (1 - s)).
Definition line_mrr (s dt : R) : R := - ln s / dt.
Definition line_vol (s dt v : R) : num := if reqb s 1 then NaN else Fin (sqrt (2 * line_mrr s dt * v / (1 - s ^ 2))).
