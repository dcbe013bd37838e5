(** Model of several generators made by WalkForward.split (quantfinlib/train_test_split/walk_forward.py) of one object, advanced, closed and
    interleaved in any order.  split is a generator function: calling it runs nothing; next() runs to the following yield, to the end or to an
    exception; a generator that ended answers StopIteration ever after; close() (also: leaving a for loop and dropping the generator) ends it
    at its yield without running any more of its code.  Groups and X are not changed by the caller in between. *)
From Coq Require Import List ZArith Bool Arith.
From Verif Require Import Base Split_Model.
Import ListNotations.
Open Scope Z_scope.

(** the arguments of one call of split *)
Record wcall := mkCall { c_x : xarg; c_y : yarg; c_g : garg }.
(** where a generator stands: not started, waiting at the yield with its four local boundaries, or ended *)
Inductive gstate := Fresh | Paused (s : wfst) | Ended.
(** what next() does: return a pair, raise StopIteration, raise another exception *)
Inductive answer := Offer (pr : list nat * list nat) | Stop | Fail (e : exn).

(** walk_forward.py 112: the groups used *)
Definition call_groups (c : wcall) : groups := match c_g c with GArr g => g | _ => arange_groups (x_rows (c_x c)) end.

(** walk_forward.py 125-138: from the head of the loop to the yield *)
Definition head (w : wforward) (c : wcall) (s : wfst) : gstate * answer :=
  let g := call_groups c in
  match get_last g with
  | Raise e => (Ended, Fail e)
  | Ok l =>
      if ws_te s <? l then
        match wf_pair w (seq 0 (x_rows (c_x c))) g s with
        | Raise e => (Ended, Fail e)
        | Ok pr => (Paused s, Offer pr)
        end
      else (Ended, Stop)
  end.

(** walk_forward.py 109-151: next() on a generator of the object in state [o] *)
Definition wf_next (w : wforward) (c : wcall) (st : gstate) (o : wfobj) : gstate * wfobj * answer :=
  match st with
  | Ended => (Ended, o, Stop)
  | Fresh =>
      match (_ <- basecv_split (c_x c) (c_y c) (c_g c) ;; wf_start w (call_groups c)) with
      | Raise e => (Ended, o, Fail e)
      | Ok s => let '(st', a) := head w c s in (st', o, a)
      end
  | Paused s =>
      let o1 := mkWO (wo_n o + 1) (wo_fin o) in
      match get_last (call_groups c) with
      | Raise e => (Ended, o1, Fail e)
      | Ok l =>
          if ws_xe s >=? l then (Ended, mkWO (wo_n o1) true, Stop)
          else match wf_advance w (call_groups c) s with
               | Raise e => (Ended, o1, Fail e)
               | Ok s' => let '(st', a) := head w c s' in (st', o1, a)
               end
      end
  end.

(** one splitter object and the generators made from it so far, numbered from 0 *)
Record sys := mkSys { y_obj : wfobj; y_gens : list (wcall * gstate) }.
Inductive event := Split (c : wcall) | Next (i : nat) | Close (i : nat) | Count.
Inductive reply := Created | Ans (a : answer) | Closed | Number (z : Z) | NoSuch.

Fixpoint set_nth {A} (i : nat) (x : A) (l : list A) : list A :=
  match l, i with
  | [], _ => []
  | _ :: l, O => x :: l
  | a :: l, S i => a :: set_nth i x l
  end.

(** one action of the user: split(...), next(generator i), generator i .close(), get_n_splits() (walk_forward.py 76-84) *)
Definition act (w : wforward) (e : event) (sy : sys) : reply * sys :=
  match e with
  | Split c => (Created, mkSys (y_obj sy) (y_gens sy ++ [(c, Fresh)]))
  | Next i =>
      match nth_error (y_gens sy) i with
      | None => (NoSuch, sy)
      | Some (c, st) => let '(st', o', a) := wf_next w c st (y_obj sy) in (Ans a, mkSys o' (set_nth i (c, st') (y_gens sy)))
      end
  | Close i =>
      match nth_error (y_gens sy) i with
      | None => (NoSuch, sy)
      | Some (c, _) => (Closed, mkSys (y_obj sy) (set_nth i (c, Ended) (y_gens sy)))
      end
  | Count => (Number (wf_get_n_splits (y_obj sy)), sy)
  end.

(** any sequence of actions: the log of actions and replies, and what is left *)
Fixpoint play (w : wforward) (es : list event) (sy : sys) : list (event * reply) * sys :=
  match es with
  | [] => ([], sy)
  | e :: es => let '(r, sy1) := act w e sy in let '(l, sy2) := play w es sy1 in ((e, r) :: l, sy2)
  end.
