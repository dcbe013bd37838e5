(** What is meant by dates, by not looking ahead and by the same numbers, for features of Series. *)
From Coq Require Import Reals ZArith List Arith Bool Sorted.
From Verif Require Import Base Num Lab_Model.
Import ListNotations.

(** dates in increasing order, none twice *)
Definition dated (s : ser) : Prop := StronglySorted Z.lt (map fst s).
(** the part of a Series known at time t *)
Definition upto (t : Z) (s : ser) : ser := filter (fun p => (fst p <=? t)%Z) s.
Definition known (t : Z) (r : res ser) : res ser := match r with Ok s => Ok (upto t s) | Raise e => Raise e end.
(** cutting the inputs at t only cuts the output at t *)
Definition no_look_ahead2 (F : ser -> ser -> res ser) : Prop :=
  forall s1 s2 t, dated s1 -> dated s2 -> F (upto t s1) (upto t s2) = known t (F s1 s2).
Definition no_look_ahead3 (F : ser -> ser -> ser -> res ser) : Prop :=
  forall s1 s2 s3 t, dated s1 -> dated s2 -> dated s3 -> F (upto t s1) (upto t s2) (upto t s3) = known t (F s1 s2 s3).
Definition no_look_ahead4 (F : ser -> ser -> ser -> ser -> res ser) : Prop :=
  forall s1 s2 s3 s4 t, dated s1 -> dated s2 -> dated s3 -> dated s4 ->
    F (upto t s1) (upto t s2) (upto t s3) (upto t s4) = known t (F s1 s2 s3 s4).
(** the dates of the result are all dates of the inputs *)
Definition all_dates (ss : list ser) (r : res ser) : Prop :=
  forall out, r = Ok out -> dated out /\ forall k, In k (map fst out) <-> exists s, In s ss /\ In k (map fst s).
(** the Series with the dates ix and the values v *)
Definition series (ix : list Z) (v : list num) : ser := combine ix v.
Definition with_dates (ix : list Z) (r : res (list num)) : res ser := match r with Ok v => Ok (series ix v) | Raise e => Raise e end.
(** v is the Series s written out on the dates U, NaN where it has no value *)
Definition written_out (U : list Z) (s : ser) (v : list num) : Prop :=
  length v = length U /\ forall i, (i < length U)%nat ->
    (forall x, In (nth i U 0%Z, x) s -> nth i v NaN = x) /\ ((forall x, ~ In (nth i U 0%Z, x) s) -> nth i v NaN = NaN).
(** the union of the dates of several Series, in order *)
Definition union_dates (ss : list ser) (U : list Z) : Prop := StronglySorted Z.lt U /\ forall k, In k U <-> exists s, In s ss /\ In k (map fst s).
(** a row is missing as soon as, on one of the w dates ending there, one of the inputs has no row *)
Definition gaps_are_missing (ss : list ser) (w : Z) (r : res ser) : Prop :=
  forall out i j, r = Ok out -> (j <= i < length out)%nat -> (Z.of_nat i < Z.of_nat j + w)%Z ->
    (exists s, In s ss /\ ~ In (fst (nth j out (0%Z, NaN))) (map fst s)) -> snd (nth i out (0%Z, NaN)) = NaN.
