(** Vocabulary for the properties of features, independent of the model of the functions. *)
From Coq Require Import Reals ZArith List Arith.
From Verif Require Import Base Num Sums.
Import ListNotations.
Open Scope R_scope.

(** No look-ahead: the result has one value per input row, and the result for the first k rows is the beginning of the result for all
    rows.  For several inputs of different lengths the number of rows is the length of the longest. *)
Definition causal1 (f : list num -> res (list num)) : Prop :=
  forall x out, f x = Ok out -> length out = length x /\ forall k, f (firstn k x) = Ok (firstn k out).
Definition causal2 (f : list num -> list num -> res (list num)) : Prop :=
  forall x y out, f x y = Ok out -> length out = Nat.max (length x) (length y) /\ forall k, f (firstn k x) (firstn k y) = Ok (firstn k out).
Definition causal3 (f : list num -> list num -> list num -> res (list num)) : Prop :=
  forall x y z out, f x y z = Ok out -> length out = Nat.max (length x) (Nat.max (length y) (length z))
    /\ forall k, f (firstn k x) (firstn k y) (firstn k z) = Ok (firstn k out).
Definition causal4 (f : list num -> list num -> list num -> list num -> res (list num)) : Prop :=
  forall x y z u out, f x y z u = Ok out -> length out = Nat.max (Nat.max (length x) (length y)) (Nat.max (length z) (length u))
    /\ forall k, f (firstn k x) (firstn k y) (firstn k z) (firstn k u) = Ok (firstn k out).

(** v are the w values of the series l ending at position i, all of them present and finite *)
Definition window_is (l : list num) (w i : nat) (v : list R) : Prop :=
  (w <= S i)%nat /\ length v = w /\ forall j, (j < w)%nat -> nth (S i - w + j) l NaN = Fin (nth j v 0).

(** exponentially weighted sum of f over the present values at positions 0..i: the weight of position j is (1-a)^(i-j) *)
Definition on_present (f : R -> R) (x : num) : R := match x with Fin a => f a | _ => 0 end.
Definition wsum (a : R) (f : R -> R) (l : list num) (i : nat) : R :=
  sumn (S i) (fun j => (1 - a) ^ (i - j) * on_present f (nth j l NaN)).

(** the sum of the squared weights *)
Definition wsum2 (a : R) (l : list num) (i : nat) : R := sumn (S i) (fun j => (1 - a) ^ (i - j) * (1 - a) ^ (i - j) * on_present (fun _ => 1) (nth j l NaN)).
(** two values seen up to position i *)
Definition two_seen (l : list num) (i : nat) : Prop := exists j k x y, (j < k)%nat /\ (k <= i)%nat /\ nth j l NaN = Fin x /\ nth k l NaN = Fin y.

(** a number or NaN *)
Definition nonneg (x : num) : Prop := x = NaN \/ exists r, x = Fin r /\ 0 <= r.
Definition within (lo hi : R) (x : num) : Prop := x = NaN \/ exists r, x = Fin r /\ lo <= r <= hi.

(** every price bar is complete and consistent: 0 < low <= open, close <= high *)
Definition valid_bars (h l o c : list num) : Prop :=
  length l = length h /\ length o = length h /\ length c = length h /\
  forall i, (i < length h)%nat -> exists a b x y, nth i h NaN = Fin a /\ nth i l NaN = Fin b /\ nth i o NaN = Fin x /\ nth i c NaN = Fin y
    /\ 0 < b /\ b <= x <= a /\ b <= y <= a.
(** every value is a positive number *)
Definition positive (l : list num) : Prop := forall i, (i < length l)%nat -> exists a, nth i l NaN = Fin a /\ 0 < a.
(** every value multiplied by c *)
Definition scaled (c : R) (l : list num) : list num := map (nmul (Fin c)) l.
