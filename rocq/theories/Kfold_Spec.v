(** What a TimeAwareKFold run is supposed to produce, in terms of the samples 0..n-1, their group values G and the
    requested number of folds k.  Nothing here mentions the model. *)
From Coq Require Import ZArith Arith.
Open Scope Z_scope.

(** First sample of nominal fold j when n samples are cut in k consecutive folds whose sizes differ by at most one,
    larger folds first. *)
Definition fold_start (n k j : nat) : nat := (j * (n / k) + Nat.min j (n mod k))%nat.

(** s is the first sample that has the same group value as sample i *)
Definition first_of_group (G : nat -> Z) (i s : nat) : Prop :=
  (s <= i)%nat /\ G s = G i /\ forall m, (m < s)%nat -> G m <> G i.

(** Sample i is tested in fold j: the first sample of its group lies in nominal fold j. *)
Definition in_fold (n k : nat) (G : nat -> Z) (j i : nat) : Prop :=
  (i < n)%nat /\ exists s, first_of_group G i s /\ (fold_start n k j <= s < fold_start n k (S j))%nat.

(** Sample i may be used for training when fold j is tested: it lies more than e before all the fold's groups, or
    (unless only the past may be used) more than p after all of them. *)
Definition trainable (n k : nat) (G : nat -> Z) (past_only : bool) (e p : Z) (j i : nat) : Prop :=
  (i < n)%nat /\
  ((forall t, in_fold n k G j t -> G i + e < G t) \/
   (past_only = false /\ forall t, in_fold n k G j t -> G t + p < G i)).

(** Two neighbouring samples on both sides of a nominal fold boundary have the same group value v. *)
Definition group_crosses (n k : nat) (G : nat -> Z) (v : Z) : Prop :=
  exists j, (0 < j < k)%nat /\ G (fold_start n k j - 1)%nat = v /\ G (fold_start n k j) = v.
