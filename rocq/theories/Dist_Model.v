(** Model of quantfinlib/distance/correlation.py and of the correlation half of distance_matrix.py. *)
From Coq Require Import Reals String List Arith Bool ZArith.
From Verif Require Import Base Num Sim_Model.
Import ListNotations.
Open Scope R_scope.

(** What a caller can pass as data or as a correlation: a Python or numpy scalar, a numpy array of 1 or 2 dimensions
    (other dimensions only matter through their number), a pandas Series or DataFrame, or something else. *)
Inductive obj :=
| OScalar (c : num)
| OArr1 (l : list num)
| OArr2 (a : arr2)
| OArrN (ndim : nat)
| OSeries (l : list num)
| OFrame (names : list string) (a : arr2)
| OOther.

(* ------------------------------------------------------------------ *)
(** ** numpy contracts *)

(** np.clip: NaN stays NaN *)
Definition nclip (lo hi : num) (x : num) : num :=
  let y := if is_nan x then NaN else if nltb x lo then lo else x in
  if is_nan y then NaN else if nltb hi y then hi else y.
(** np.isclose with the default tolerances rtol = 1e-5, atol = 1e-8 *)
Definition isclose (a b : num) : bool :=
  match a, b with
  | Fin x, Fin y => rleb (Rabs (x - y)) (1 / 10 ^ 8 + 1 / 10 ^ 5 * Rabs y)
  | _, _ => neqb a b
  end.
Definition all_upto (n : nat) (f : nat -> bool) : bool := forallb f (seq 0 n).
(** np.allclose(a, a.T) for a square array *)
Definition close_to_transpose (a : arr2) : bool :=
  all_upto (nrow a) (fun i => all_upto (ncol a) (fun j => isclose (at2 a i j) (at2 a j i))).
Definition amap (f : num -> num) (a : arr2) : arr2 := mkArr (nrow a) (ncol a) (fun i j => f (at2 a i j)).
(** np.fill_diagonal(a, v) of a square array *)
Definition fill_diag (v : num) (a : arr2) : arr2 :=
  mkArr (nrow a) (ncol a) (fun i j => if Nat.eqb i j then v else at2 a i j).
(** np.cov(x, y)[0, 1], [0, 0], [1, 1]: dot product of the centred vectors times 1 / (n - 1), with n - 1 cut at 0 *)
Definition ncov (x y : list num) : num :=
  let mx := nmean x in let my := nmean y in
  nmul (nsum (map (fun p => nmul (nsub (fst p) mx) (nsub (snd p) my)) (combine x y)))
       (ndiv (Fin 1) (nofnat (length x - 1))).
(** np.corrcoef(x, y)[0, 1] for one-dimensional arguments *)
Definition corrcoef (x y : list num) : res num :=
  if negb (Nat.eqb (length x) (length y)) then Raise ValueError
  else Ok (nclip (Fin (-1)) (Fin 1) (ndiv (ndiv (ncov x y) (nsqrt (ncov x x))) (nsqrt (ncov y y)))).

(* ------------------------------------------------------------------ *)
(** ** correlation.py *)

(** correlation.py 42-50 _conversion_function on one number *)
Definition conversion (method : string) (x : num) : res num :=
  if String.eqb method "angular" then Ok (nsqrt (ndiv (nsub (Fin 1) x) (Fin 2)))
  else if String.eqb method "abs_angular" then Ok (nsqrt (nsub (Fin 1) (nabs x)))
  else if String.eqb method "squared_angular" then Ok (nsqrt (nsub (Fin 1) (nsqr x)))
  else Raise NotImplementedError.
(** conversion of all entries: the method is the same for all of them *)
Definition conversion_all (method : string) (a : arr2) : res arr2 :=
  if existsb (String.eqb method) ["angular"; "abs_angular"; "squared_angular"]%string
  then Ok (amap (fun x => match conversion method x with Ok d => d | Raise _ => NaN end) a)
  else Raise NotImplementedError.

(** correlation.py 20-26 _validate_correlation_matrix, for an object known to be an ndarray *)
Definition validate_corr (x : obj) : res unit :=
  match x with
  | OArr2 a =>
      if negb (Nat.eqb (nrow a) (ncol a)) then Raise AssertionError
      else if negb (close_to_transpose a) then Raise AssertionError
      else if negb (all_upto (nrow a) (fun i => neqb (at2 a i i) (Fin 1))) then Raise AssertionError
      else Ok tt
  | _ => Raise AssertionError
  end.

(** correlation.py 29-39 _convert_correlation_to_distance.  The argument of a scalar call is a float or np.float64; a
    pandas object is no ndarray and is neither validated nor given a zero diagonal.  Simplification: nested Python lists
    (which np.clip would turn into an array after the validation was skipped) count as [OOther]. *)
Definition convert (method : string) (x : obj) : res obj :=
  match x with
  | OScalar c =>
      d <- conversion method (nclip (Fin (-1)) (Fin 1) c) ;; Ok (OScalar (nclip (Fin 0) (Fin 1) d))
  | OArr1 _ | OArrN _ => Raise AssertionError
  | OArr2 a =>
      _ <- validate_corr x ;;
      d <- conversion_all method (amap (nclip (Fin (-1)) (Fin 1)) a) ;;
      Ok (OArr2 (fill_diag (Fin 0) (amap (nclip (Fin 0) (Fin 1)) d)))
  | OFrame names a =>
      d <- conversion_all method (amap (nclip (Fin (-1)) (Fin 1)) a) ;;
      Ok (OFrame names (amap (nclip (Fin 0) (Fin 1)) d))
  | OSeries l =>
      d <- mapM (fun v => conversion method (nclip (Fin (-1)) (Fin 1) v)) l ;;
      Ok (OSeries (map (nclip (Fin 0) (Fin 1)) d))
  | OOther => Raise TypeError
  end.

(** correlation.py 53-107 *)
Definition corr_to_angular_dist := convert "angular".
Definition corr_to_abs_angular_dist := convert "abs_angular".
Definition corr_to_squared_angular_dist := convert "squared_angular".

(** correlation.py 110-164; the result of np.corrcoef(...)[0, 1] is a np.float64 *)
Definition pair_distance (method : string) (x y : list num) : res num :=
  c <- corrcoef x y ;;
  d <- convert method (OScalar c) ;;
  match d with OScalar v => Ok v | _ => Raise TypeError end.
Definition pair_angular_distance := pair_distance "angular".
Definition pair_abs_angular_distance := pair_distance "abs_angular".
Definition pair_squared_angular_distance := pair_distance "squared_angular".

(* ------------------------------------------------------------------ *)
(** ** validation decorators, util/_validate.py *)

(** _validate.py 12-20, 47-57 the checks for one-dimensional and two-dimensional arguments *)
Definition check_1d (x : obj) : res (list num) :=
  match x with
  | OArr1 l | OSeries l => if Nat.ltb (length l) 2 then Raise ValueError else Ok l
  | _ => Raise ValueError
  end.
Definition check_2d (x : obj) : res unit :=
  match x with
  | OArr2 a | OFrame _ a => if Nat.ltb (ncol a) 2 then Raise ValueError else Ok tt
  | _ => Raise ValueError
  end.

(* ------------------------------------------------------------------ *)
(** ** distance_matrix.py, correlation part *)

Definition dist_methods : list string := ["angular"; "abs_angular"; "squared_angular"]%string.

(** distance_matrix.py 144-162 corr_to_dist *)
Definition corr_to_dist (corr : obj) (method : string) : res obj :=
  _ <- check_2d corr ;;
  if negb (existsb (String.eqb method) dist_methods) then Raise AssertionError else convert method corr.

(** pandas DataFrame.corr(method="pearson"): pairs of finite observations (NaN and infinities are left out), at
    least one pair (min_periods=1), clipped to [-1, 1], NaN when a column has no variation. *)
Definition complete (x y : list num) : list (num * num) :=
  filter (fun p => is_fin (fst p) && is_fin (snd p)) (combine x y).
Definition pandas_pearson (x y : list num) : num :=
  let ps := complete x y in
  let u := map fst ps in let v := map snd ps in
  let dev a b := nsum (map (fun p => nmul (nsub (fst p) (nmean a)) (nsub (snd p) (nmean b))) (combine a b)) in
  if Nat.ltb (length ps) 1 then NaN
  else
    let den := nsqrt (nmul (dev u u) (dev v v)) in
    if neqb den (Fin 0) then NaN else nclip (Fin (-1)) (Fin 1) (ndiv (dev u v) den).
Definition pearson_matrix (a : arr2) : arr2 := mkArr (ncol a) (ncol a) (fun i j => pandas_pearson (col a i) (col a j)).

(** pandas DataFrame.corr(method="spearman") (called in distance_matrix.py 92): the average ranks of the pairs of finite observations,
    centred at (n + 1) / 2; NaN when a column has no variation *)
Definition rank_in (l : list num) (x : num) : num :=
  nadd (nofnat (length (filter (fun y => nltb y x) l))) (ndiv (nadd (nofnat (length (filter (neqb x) l))) (Fin 1)) (Fin 2)).
Definition pandas_spearman (x y : list num) : num :=
  let ps := complete x y in
  let u := map (rank_in (map fst ps)) (map fst ps) in let v := map (rank_in (map snd ps)) (map snd ps) in
  let mean := ndiv (nadd (nofnat (length ps)) (Fin 1)) (Fin 2) in
  let dev a b := nsum (map (fun p => nmul (nsub (fst p) mean) (nsub (snd p) mean)) (combine a b)) in
  if Nat.ltb (length ps) 1 then NaN
  else
    let divisor := nsqrt (nmul (dev u u) (dev v v)) in
    if neqb divisor (Fin 0) then NaN else ndiv (dev u v) divisor.
Definition spearman_matrix (a : arr2) : arr2 := mkArr (ncol a) (ncol a) (fun i j => pandas_spearman (col a i) (col a j)).

(** distance_matrix.py 85-93 _calculate_correlation; [spearman] is the rank correlation of pandas: most theorems hold for any function of the data, C94 is about [spearman_matrix] *)
Definition calculate_correlation (spearman : arr2 -> arr2) (X : obj) (method : string) : res obj :=
  _ <- check_2d X ;;
  let f := if String.eqb method "pearson" then pearson_matrix else spearman in
  match X with
  | OArr2 a => Ok (OArr2 (f a))
  | OFrame names a => Ok (OFrame names (f a))
  | _ => Raise ValueError
  end.

(** distance_matrix.py 96-141 get_corr_distance_matrix, without keyword arguments for pandas *)
Definition get_corr_distance_matrix (spearman : arr2 -> arr2) (X : obj) (corr_method dist_method : string)
    (transformer : option (obj -> res obj)) : res obj :=
  if negb (existsb (String.eqb corr_method) ["pearson"; "spearman"]%string) then Raise AssertionError
  else
    c <- calculate_correlation spearman X corr_method ;;
    c <- match transformer with None => Ok c | Some f => f c end ;;
    corr_to_dist c dist_method.
