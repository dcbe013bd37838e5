(** What is asked of a rounding, and binary64 (IEEE double precision, round to nearest, ties to even, without overflow). *)
From Coq Require Import Reals ZArith List.
From Flocq Require Import Core.
From Verif Require Import Base Num Rnd_Model.
Open Scope R_scope.

(** a number the machine can hold *)
Definition held (r : R -> R) (x : R) : Prop := r x = x.
Record rounding (r : R -> R) : Prop := mkRounding {
  r_mono : forall x y, x <= y -> r x <= r y;
  r_idem : forall x, held r (r x);
  r_opp : forall x, r (- x) = - r x;
  r_double : forall x, held r x -> held r (2 * x);
  r_1 : held r 1;
  r_100 : held r 100
}.
Definition binary64 (x : R) : R := round radix2 (FLT_exp (-1074) 53) ZnearestE x.
(** numbers as the code sees them: NaN, infinities, or a finite number the machine can hold *)
Definition nheld (r : R -> R) (x : num) : Prop := match x with Fin a => held r a | _ => True end.
(** missing or finite and within bounds *)
Definition within (lo hi : R) (x : num) : Prop := x = NaN \/ exists a, x = Fin a /\ lo <= a <= hi.
Definition nonneg (x : num) : Prop := x = NaN \/ exists a, x = Fin a /\ 0 <= a.
(** binary64 with correctly rounded exponential and logarithm *)
Definition double : machine := mkMachine binary64 (fun x => binary64 (exp x)) (fun x => binary64 (ln x)).
