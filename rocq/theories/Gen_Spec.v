(** Specification vocabulary for C124: what can be read off a log of actions and replies. *)
From Coq Require Import List ZArith Bool Arith.
From Verif Require Import Base Split_Model Gen_Model.
Import ListNotations.

(** actions on generator i *)
Definition about (i : nat) (e : event) : bool := match e with Next j | Close j => Nat.eqb i j | _ => false end.
(** calls of split, in order: the j-th one makes generator j *)
Fixpoint calls (es : list event) : list wcall := match es with [] => [] | Split c :: es => c :: calls es | _ :: es => calls es end.
(** the same action on generator 0 *)
Definition on_0 (e : event) : event := match e with Next _ => Next 0 | Close _ => Close 0 | e => e end.

(** Logs with the latest entry first.  The pair that generator i offered in the latest action on it, if it did. *)
Fixpoint last_offer (i : nat) (log : list (event * reply)) : option (list nat * list nat) :=
  match log with
  | [] => None
  | (e, r) :: log => if about i e then match e, r with Next _, Ans (Offer p) => Some p | _, _ => None end else last_offer i log
  end.
(** Pairs used up: those after which the generator was asked for more. *)
Fixpoint used (log : list (event * reply)) : list (nat * (list nat * list nat)) :=
  match log with
  | [] => []
  | (Next i, _) :: log => match last_offer i log with Some p => (i, p) :: used log | None => used log end
  | _ :: log => used log
  end.
(** some pair used up tests the last sample of its X *)
Definition ends_reached (cs : list wcall) (u : list (nat * (list nat * list nat))) : Prop :=
  exists i p c, In (i, p) u /\ nth_error cs i = Some c /\ In (x_rows (c_x c) - 1)%nat (snd p).
