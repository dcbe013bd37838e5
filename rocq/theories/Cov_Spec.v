(** Vocabulary for the covariance properties (C47-C52, C81). *)
From Coq Require Import Reals ZArith List Arith Permutation.
From Verif Require Import Base Num Sums Lin Sim_Model.
Import ListNotations.
Open Scope R_scope.

(** an n x n array holding the real numbers A i j *)
Definition holds_matrix (a : arr2) (n : nat) (A : mat) : Prop :=
  nrow a = n /\ ncol a = n /\ forall i j, (i < n)%nat -> (j < n)%nat -> at2 a i j = Fin (A i j).
Definition matrix (n : nat) (A : mat) : arr2 := mkArr n n (fun i j => Fin (A i j)).

(** covariance matrices: symmetric and positive semidefinite *)
Definition psd (n : nat) (A : mat) : Prop := symmetric n A /\ forall x, 0 <= quad n A x.
(** correlation matrices: covariance matrices with ones on the diagonal *)
Definition correlation_matrix (n : nat) (A : mat) : Prop := psd n A /\ forall i, (i < n)%nat -> A i i = 1.

(** a number between -1 and 1, or NaN *)
Definition bounded (x : num) : Prop := x = NaN \/ exists r, x = Fin r /\ -1 <= r <= 1.

(** asset i belongs to block b when blocks of the given sizes are laid out one after the other *)
Definition in_block (sizes : list nat) (b i : nat) : Prop :=
  (b < length sizes)%nat /\ (list_sum (firstn b sizes) <= i)%nat /\ (i < list_sum (firstn (S b) sizes))%nat.

Definition descending (l : list R) : Prop := forall i j, (i <= j)%nat -> (j < length l)%nat -> nth j l 0 <= nth i l 0.

(** w is an eigenvector of the n x n matrix A for the eigenvalue r *)
Definition eigenpair (n : nat) (A : mat) (r : R) (w : nat -> R) : Prop := forall i, (i < n)%nat -> sumn n (fun j => A i j * w j) = r * w i.

(** what np.argsort promises on finite numbers: a rearrangement of the positions, by increasing value *)
Definition sorts (argsort : list num -> list nat) : Prop := forall l : list R,
  Permutation (argsort (map Fin l)) (seq 0 (length l))
  /\ forall i j, (i <= j)%nat -> (j < length l)%nat -> nth (nth i (argsort (map Fin l)) 0%nat) l 0 <= nth (nth j (argsort (map Fin l)) 0%nat) l 0.

(** what np.linalg.eigh promises for a symmetric matrix C: real eigenvalues l and orthonormal eigenvectors, the columns of U *)
Definition decomposes (eigh : arr2 -> res (list num * arr2)) (n : nat) (C : mat) : Prop :=
  forall a, holds_matrix a n C -> exists l V U, eigh a = Ok (map Fin l, V) /\ length l = n /\ holds_matrix V n U
    /\ orthogonal n U /\ meq n C (spectral n U (fun k => nth k l 0)).
(** what the left factor of np.linalg.svd promises for an n x k matrix with orthonormal columns, k < n: its columns from k on
    complete them to an orthonormal basis *)
Definition completes (svd_u : arr2 -> res arr2) (n : nat) : Prop :=
  forall a k E, nrow a = n -> ncol a = k -> (k < n)%nat -> (forall i j, (i < n)%nat -> (j < k)%nat -> at2 a i j = Fin (E i j)) ->
    (forall p q, (p < k)%nat -> (q < k)%nat -> sumn n (fun i => E i p * E i q) = mid p q) ->
    exists e W, svd_u a = Ok e /\ holds_matrix e n W /\ orthogonal n (fun i j => if Nat.ltb j k then E i j else W i j).
