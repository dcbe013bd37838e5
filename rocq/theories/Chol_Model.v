(** Model of np.linalg.cholesky, used by quantfinlib/sim/_bm.py 153, 184, _gbm.py 158, 192, _ou.py 186, 241. *)
From Coq Require Import Reals List Arith Bool.
From Verif Require Import Base Num Sim_Model.
Import ListNotations.

(** The first [k] columns of the factor, column after column (LAPACK potrf, lower triangle): only entries a i j with j <= i are
    read; a pivot that is not a positive number raises LinAlgError. *)
Fixpoint chol_cols (a : nat -> nat -> num) (k : nat) : res (nat -> nat -> num) :=
  match k with
  | O => Ok (fun _ _ => Fin 0)
  | S j =>
      L <- chol_cols a j ;;
      let dot i := nsum (map (fun l => nmul (L i l) (L j l)) (seq 0 j)) in
      let pivot := nsub (a j j) (dot j) in
      if ngtb pivot (Fin 0) then
        let d := nsqrt pivot in
        Ok (fun i l => if Nat.eqb l j then
                         (if Nat.ltb i j then Fin 0 else if Nat.eqb i j then d else ndiv (nsub (a i j) (dot i)) d)
                       else L i l)
      else Raise LinAlgError
  end.

(** np.linalg.cholesky of a two-dimensional array; entries outside the array are 0 *)
Definition np_cholesky (a : arr2) : res arr2 :=
  if Nat.eqb (nrow a) (ncol a) then
    L <- chol_cols (at2 a) (nrow a) ;;
    Ok (mkArr (nrow a) (nrow a) (fun i j => if Nat.ltb i (nrow a) then L i j else Fin 0))
  else Raise LinAlgError.
