(** Exceptions as values, and a few list helpers shared by all models. *)
From Coq Require Import List ZArith Bool Arith Lia.
Import ListNotations.

(** The Python exception classes that the modelled code, or the library calls it makes, can raise. *)
Inductive exn :=
| ValueError | TypeError | IndexError | KeyError | AssertionError | ZeroDivisionError
| UnboundLocalError | IndexingError | FileNotFoundError | LinAlgError | NotImplementedError
| AttributeError | OverflowError.

(** Outcome of a Python call. *)
Inductive res (A : Type) := Ok (a : A) | Raise (e : exn).
Arguments Ok {A} a.
Arguments Raise {A} e.

Definition bind {A B} (r : res A) (f : A -> res B) : res B :=
  match r with Ok a => f a | Raise e => Raise e end.

Notation "x <- r ;; k" := (bind r (fun x => k)) (at level 100, r at next level, right associativity).

(** Apply a possibly raising function to each element, left to right, stopping at the first exception. *)
Fixpoint mapM {A B} (f : A -> res B) (l : list A) : res (list B) :=
  match l with
  | [] => Ok []
  | a :: t => b <- f a ;; bs <- mapM f t ;; Ok (b :: bs)
  end.

Definition is_ok {A} (r : res A) : bool := match r with Ok _ => true | Raise _ => false end.

Lemma bind_ok : forall A B (r : res A) (f : A -> res B) b,
  bind r f = Ok b -> exists a, r = Ok a /\ f a = Ok b.
Proof. intros A B [a|e] f b H; simpl in H; [eauto|discriminate]. Qed.

Lemma mapM_ok_length : forall A B (f : A -> res B) l l',
  mapM f l = Ok l' -> length l' = length l.
Proof.
  induction l as [|a t IH]; simpl; intros l' H.
  - injection H as <-; reflexivity.
  - apply bind_ok in H; destruct H as [b [_ H]].
    apply bind_ok in H; destruct H as [bs [H1 H]].
    injection H as <-; simpl; f_equal; eauto.
Qed.

Lemma mapM_ok_nth : forall A B (f : A -> res B) l l',
  mapM f l = Ok l' -> forall i a, nth_error l i = Some a -> exists b, nth_error l' i = Some b /\ f a = Ok b.
Proof.
  induction l as [|a t IH]; simpl; intros l' H i a0 Hi.
  - destruct i; discriminate.
  - apply bind_ok in H; destruct H as [b [Hb H]].
    apply bind_ok in H; destruct H as [bs [H1 H]].
    injection H as <-. destruct i; simpl in *.
    + injection Hi as <-; eauto.
    + eauto.
Qed.

Lemma mapM_ok_intro : forall A B (f : A -> res B) (g : A -> B) l,
  (forall a, In a l -> f a = Ok (g a)) -> mapM f l = Ok (map g l).
Proof.
  induction l as [|a t IH]; simpl; intros H; auto.
  rewrite H by auto; simpl. rewrite IH by auto; reflexivity.
Qed.
