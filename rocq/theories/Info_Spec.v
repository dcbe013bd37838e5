(** Specification vocabulary for histograms and Shannon entropies, over the real numbers. *)
From Coq Require Import Reals List Arith.
From Verif Require Import Num.
Import ListNotations.
Open Scope R_scope.

(** m is the least (greatest) element of the list *)
Definition least (m : R) (l : list R) : Prop := In m l /\ forall v, In v l -> m <= v.
Definition greatest (m : R) (l : list R) : Prop := In m l /\ forall v, In v l -> v <= m.
(** the interval from lo to hi cut into b cells of equal width: v lies in cell i; every cell is closed on the left,
    the last one on both sides *)
Definition in_cell (b : nat) (lo hi v : R) (i : nat) : Prop :=
  (i < b)%nat /\ lo + INR i * ((hi - lo) / INR b) <= v /\
  (v < lo + INR (i + 1) * ((hi - lo) / INR b) \/ (i = b - 1)%nat /\ v <= hi).
(** labels is a discretisation of the data: every value lies in the cell of its label, the cells covering the range of
    the data, or, for constant data, the interval of width one around the value *)
Definition discretises (b : nat) (data : list R) (labels : list nat) : Prop :=
  length labels = length data /\
  forall lo hi, least lo data -> greatest hi data ->
  forall k, (k < length data)%nat ->
    (lo < hi -> in_cell b lo hi (nth k data 0) (nth k labels 0%nat)) /\
    (lo = hi -> in_cell b (lo - 1 / 2) (hi + 1 / 2) (nth k data 0) (nth k labels 0%nat)).

(** relative frequency of a list element *)
Definition share {A} (dec : forall a b : A, {a = b} + {a <> b}) (l : list A) (a : A) : R :=
  INR (count_occ dec l a) / INR (length l).
(** Shannon entropy of a distribution given on a finite list of outcomes, with 0 ln 0 = 0 *)
Definition shannon (p : list R) : R := rsum (map (fun q => - (q * ln q)) p).
Definition entropy_1 (b : nat) (x : list nat) : R := shannon (map (share Nat.eq_dec x) (seq 0 b)).
Definition pair_dec : forall a b : nat * nat, {a = b} + {a <> b}.
Proof. decide equality; apply Nat.eq_dec. Defined.
Definition entropy_2 (b : nat) (x y : list nat) : R :=
  shannon (map (share pair_dec (combine x y)) (list_prod (seq 0 b) (seq 0 b))).
