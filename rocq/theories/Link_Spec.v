(** What a user of HC relies on about linkages and clusters, in terms of items 0 .. n-1, their distances D and the rows of the linkage matrix. *)
From Coq Require Import Reals String List Arith ZArith.
From Verif Require Import Base Num Sums Sim_Model Dist_Model Clust_Model Link_Model.
Import ListNotations.
Open Scope R_scope.

(** [dist] is an array or DataFrame with n >= 2 rows and columns, symmetric, zero on the diagonal, with no negative distance *)
Definition distance_matrix (dist : obj) (n : nat) (D : nat -> nat -> R) : Prop :=
  (2 <= n)%nat /\ (exists a, (dist = OArr2 a \/ exists names, dist = OFrame names a) /\ nrow a = n /\ ncol a = n /\
     forall i j, (i < n)%nat -> (j < n)%nat -> at2 a i j = Fin (D i j)) /\
  forall i j, (i < n)%nat -> (j < n)%nat -> 0 <= D i j /\ D i j = D j i /\ D i i = 0.

(** ** Groups *)
(** the groups have the numbers 0 .. k-1, in the order in which they appear first *)
Definition numbered_groups (g : list nat) (k : nat) : Prop :=
  (forall v, In v g <-> (v < k)%nat) /\
  forall i c, (i < length g)%nat -> (c < nth i g 0)%nat -> exists j, (j < i)%nat /\ nth j g 0%nat = c.
Definition same_group (g : list nat) (i j : nat) : Prop := nth i g 0%nat = nth j g 0%nat.
(** number of groups for the argument n_clusters: at least 1, at most the number of items *)
Definition clamp (n : nat) (n_clusters : Z) : nat := Nat.max 1 (Nat.min n (Z.to_nat n_clusters)).

(** ** Rows of a linkage *)
(** the items of cluster id, with weights: an item has weight 1, and weights halve with every merge *)
Definition members (n : nat) (zs : list row) : list (list (nat * R)) :=
  fold_left (fun d r => d ++ [map (fun p => (fst p, snd p / 2)) (nth (r_left r) d [] ++ nth (r_right r) d [])]) zs (map (fun i => [(i, 1)]) (seq 0 n)).
Definition weighted_items (n : nat) (zs : list row) (id : nat) : list (nat * R) := nth id (members n zs) [].
Definition items (n : nat) (zs : list row) (id : nat) : list nat := map fst (weighted_items n zs id).
(** cluster id exists after the first k rows: made by then, and not merged by them *)
Definition exists_after (n : nat) (zs : list row) (k id : nat) : Prop :=
  (id < n + k)%nat /\ forall r, In r (firstn k zs) -> r_left r <> id /\ r_right r <> id.

(** ** Distances of clusters *)
Definition sum_list (l : list R) : R := fold_right Rplus 0 l.
Definition sum_pairs (D : nat -> nat -> R) (A B : list nat) : R := sum_list (map (fun a => sum_list (map (fun b => D a b) B)) A).
Definition mean_pairs (D : nat -> nat -> R) (A B : list nat) : R := sum_pairs D A B / (INR (length A) * INR (length B)).
Definition squared (D : nat -> nat -> R) (i j : nat) : R := D i j * D i j.
(** v is the distance of the clusters A and B: the smallest, largest, mean, weighted mean distance of an item of A and an item of B, or Ward's: the square root of
    2 |A| |B| / (|A| + |B|) times the mean squared distance between the clusters minus half of the mean squared distances within them *)
Definition cluster_distance (m : method) (D : nat -> nat -> R) (A B : list (nat * R)) (v : R) : Prop :=
  let a := map fst A in
  let b := map fst B in
  match m with
  | Single => (exists i j, In i a /\ In j b /\ v = D i j) /\ forall i j, In i a -> In j b -> v <= D i j
  | Complete => (exists i j, In i a /\ In j b /\ v = D i j) /\ forall i j, In i a -> In j b -> D i j <= v
  | Average => v = mean_pairs D a b
  | Weighted => v = sum_list (map (fun p => sum_list (map (fun q => snd p * snd q * D (fst p) (fst q)) B)) A)
  | Ward => 0 <= v /\
      v * v = 2 * (INR (length a) * INR (length b)) / (INR (length a) + INR (length b)) *
              (mean_pairs (squared D) a b - mean_pairs (squared D) a a / 2 - mean_pairs (squared D) b b / 2)
  | _ => True
  end.
(** the methods whose heights never decrease *)
Definition monotone_method (m : method) : Prop := match m with Centroid | Median => False | _ => True end.

(** i and j are joined by a chain of items of the set S whose steps are not longer than h *)
Inductive chain (D : nat -> nat -> R) (h : R) (inside : nat -> Prop) : nat -> nat -> Prop :=
| chain_refl : forall i, inside i -> chain D h inside i i
| chain_step : forall i k j, inside i -> D i k <= h -> chain D h inside k j -> chain D h inside i j.
