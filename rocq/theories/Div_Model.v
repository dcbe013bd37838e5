(** Model of quantfinlib/distance/matrix_divergence.py, for real matrices. *)
From Coq Require Import Reals List Arith Bool.
From Verif Require Import Base Num Sums Lin.
Import ListNotations.
Open Scope R_scope.

(** a two-dimensional array of real numbers *)
Record rmat := mkM { mrows : nat; mcols : nat; ent : mat }.
Definition square (p : rmat) : bool := Nat.eqb (mrows p) (mcols p).

Section Div.
  (** np.all(np.linalg.eigvals(p) > 0), np.linalg.inv and scipy.linalg.logm are external *)
  Variable eigenvalues_positive : rmat -> bool.
  Variable inv : rmat -> res mat.
  Variable logm : rmat -> mat.

  (** matrix_divergence.py 7-9 _assert_positive_definite; eigvals needs a square array *)
  Definition check_positive (p : rmat) : res unit :=
    if negb (square p) then Raise LinAlgError else if eigenvalues_positive p then Ok tt else Raise AssertionError.
  Definition assert_positive_definite (p q : rmat) : res unit := _ <- check_positive p ;; check_positive q.

  (** np.linalg.slogdet(a)[1]: the logarithm of the absolute determinant, -inf for a singular array *)
  Definition slogdet (n : nat) (a : mat) : num := nlog (Fin (Rabs (det n a))).

  (** matrix_divergence.py 12-37 log_det_divergence *)
  Definition log_det_divergence (p q : rmat) : res num :=
    _ <- assert_positive_definite p q ;;
    q_inv <- inv q ;;
    if negb (Nat.eqb (mcols p) (mrows q)) then Raise ValueError
    else
      let n := mrows p in
      let pq_inv := mmul n (ent p) q_inv in
      Ok (nsub (nsub (Fin (trace n pq_inv)) (slogdet n pq_inv)) (Fin (INR n))).

  (** numpy broadcasting of a square array against an n x n array: a single entry is repeated *)
  Definition spread (q : rmat) (a : mat) : mat := if Nat.eqb (mrows q) 1 then fun _ _ => a 0%nat 0%nat else a.
  Definition compatible (p q : rmat) : bool := Nat.eqb (mrows p) (mrows q) || Nat.eqb (mrows q) 1 || Nat.eqb (mrows p) 1.
  (** matrix_divergence.py 40-62 von_neuman_divergence, for real logarithms; a 1 x 1 array p against a larger q fails in the
      matrix product *)
  Definition von_neuman_divergence (p q : rmat) : res R :=
    _ <- assert_positive_definite p q ;;
    if negb (compatible p q) || (Nat.eqb (mrows p) 1 && negb (Nat.eqb (mrows q) 1)) then Raise ValueError
    else
      let n := mrows p in
      let diff := fun i j => logm p i j - spread q (logm q) i j in
      let first_term := trace n (mmul n (ent p) diff) in
      let second_term := trace n (fun i j => - ent p i j + spread q (ent q) i j) in
      Ok (first_term + second_term).
End Div.
