(** Model of quantfinlib/distance/information.py and of the information half of distance_matrix.py. *)
From Coq Require Import Reals String List Arith Bool ZArith.
From Verif Require Import Base Num Sim_Model Dist_Model.
Import ListNotations.
Open Scope R_scope.

(* ------------------------------------------------------------------ *)
(** ** numpy and scipy contracts *)

(** the numbers of a list without NaN and infinities *)
Fixpoint finite_values (l : list num) : option (list R) :=
  match l with
  | [] => Some []
  | Fin r :: t => match finite_values t with Some u => Some (r :: u) | None => None end
  | _ :: _ => None
  end.
Definition lmin (l : list R) : R := fold_right Rmin (hd 0 l) l.
Definition lmax (l : list R) : R := fold_right Rmax (hd 0 l) l.
(** outer edges: the range of the data, widened by one half on both sides when the data are constant *)
Definition outer_edges (l : list R) : R * R :=
  if reqb (lmin l) (lmax l) then (lmin l - 1 / 2, lmax l + 1 / 2) else (lmin l, lmax l).
(** bin of a value among b bins of equal width; the last bin is closed on the right.  In exact arithmetic np.histogram and
    np.histogram2d place a value in the same bin. *)
Definition bin_of (b : nat) (edges : R * R) (v : R) : nat :=
  Nat.min (Z.to_nat (Int_part ((v - fst edges) * INR b / (snd edges - fst edges)))) (b - 1).
Definition bins_of (b : nat) (l : list R) : list nat := map (bin_of b (outer_edges l)) l.
Definition tally {A} (f : A -> bool) (l : list A) : nat := length (filter f l).
(** np.histogram(l, b)[0] *)
Definition hist (b : nat) (l : list R) : list nat := map (fun i => tally (Nat.eqb i) (bins_of b l)) (seq 0 b).
(** np.histogram2d(x, y, b)[0].flatten() *)
Definition hist2d (b : nat) (x y : list R) : list nat :=
  flat_map (fun i => map (fun j => tally (fun p => Nat.eqb i (fst p) && Nat.eqb j (snd p)) (combine (bins_of b x) (bins_of b y))) (seq 0 b)) (seq 0 b).
(** scipy.special.entr *)
Definition entr (p : R) : R := if rltb 0 p then - (p * ln p) else 0.
(** scipy.stats.entropy, which normalises its argument (again) *)
Definition entropy (pk : list R) : R := rsum (map (fun p => entr (p / rsum pk)) pk).
(** counts divided by their sum *)
Definition normalise (h : list nat) : list R := map (fun c => INR c / rsum (map INR h)) h.
(** entropy(h / h.sum()); without any observation the sum is zero and the quotients are NaN *)
Definition entropy_of_counts (h : list nat) : num :=
  if reqb (rsum (map INR h)) 0 then NaN else Fin (entropy (normalise h)).
(** np.histogram: the number of bins must be positive and the data finite *)
Definition checked_hist (l : list num) (bins : Z) : res (list R) :=
  if Z.ltb bins 1 then Raise ValueError
  else match finite_values l with None => Raise ValueError | Some r => Ok r end.

(* ------------------------------------------------------------------ *)
(** ** information.py *)

(** Python round of a float: halves go to the even neighbour *)
Definition pyround (r : R) : Z :=
  let f := Int_part r in
  if rltb (r - IZR f) (1 / 2) then f
  else if rltb (1 / 2) (r - IZR f) then (f + 1)%Z
  else if Z.even f then f else (f + 1)%Z.
(** round of an infinity or NaN raises *)
Definition nround (x : num) : res Z :=
  match x with Fin r => Ok (pyround r) | NaN => Raise ValueError | _ => Raise OverflowError end.

(** information.py 25-52 _get_optimal_nb_bins *)
Definition optimal_nb_bins (n : nat) (corr : option num) : res Z :=
  match corr with
  | None =>
      let z := Rpower (8 + 324 * INR n + 12 * sqrt (36 * INR n + 729 * INR n ^ 2)) (1 / 3) in
      Ok (pyround (z / 6 + 2 / (3 * z) + 1 / 3))
  | Some c =>
      nround (nmul (Fin (/ sqrt 2))
        (nsqrt (nadd (Fin 1) (nsqrt (nadd (Fin 1) (ndiv (nmul (Fin 24) (nofnat n)) (nsub (Fin 1) (nsqr c))))))))
  end.
(** information.py 13-22 _get_nb_bins_from_xy with two vectors *)
Definition nb_bins_from_xy (x y : list num) : res Z :=
  c <- corrcoef x y ;;
  if neqb c (Fin 1) || nltb (nabs (nsub c (Fin 1))) (Fin (1 / 10 ^ 5)) then optimal_nb_bins (length x) None
  else c2 <- corrcoef x y ;; optimal_nb_bins (length x) (Some c2).

(** information.py 55-81 compute_entropies after the argument checks *)
Definition entropies (x y : list num) (bins : Z) : res (num * num * num) :=
  if negb (Nat.eqb (length x) (length y)) then Raise ValueError
  else
    u <- checked_hist x bins ;;
    v <- checked_hist y bins ;;
    let b := Z.to_nat bins in
    Ok (entropy_of_counts (hist b u), entropy_of_counts (hist b v), entropy_of_counts (hist2d b u v)).
Definition compute_entropies (x y : obj) (bins : Z) : res (num * num * num) :=
  x <- check_1d x ;; y <- check_1d y ;; entropies x y bins.

Definition choose_bins (x y : list num) (bins : option Z) : res Z :=
  match bins with Some b => Ok b | None => nb_bins_from_xy x y end.

(** information.py 84-138 mutual_info *)
Definition mutual_info (x y : obj) (bins : option Z) (norm : bool) : res num :=
  x <- check_1d x ;; y <- check_1d y ;;
  b <- choose_bins x y bins ;;
  h <- entropies x y b ;;
  let '(h_x, h_y, h_xy) := h in
  let mi := nsub (nadd h_x h_y) h_xy in
  Ok (if norm then ndiv mi (nsqrt (nmul h_x h_y)) else mi).

(** information.py 141-190 var_info *)
Definition var_info (x y : obj) (bins : option Z) (norm : bool) : res num :=
  x <- check_1d x ;; y <- check_1d y ;;
  b <- choose_bins x y bins ;;
  h <- entropies x y b ;;
  let '(h_x, h_y, h_xy) := h in
  let vi := nsub (nsub (nmul (Fin 2) h_xy) h_x) h_y in
  Ok (if norm then ndiv vi h_xy else vi).

(** information.py 193-224 kl_divergence_xy; the two histograms have the same number of bins.  Without observations the
    probabilities are 0/0 = NaN, which differ from 0, so every term and the sum are NaN. *)
Definition kl_term (p q : R) : R := if negb (reqb p 0) && negb (reqb q 0) then p * ln (p / q) else 0.
Definition kl_divergence_xy (x y : obj) (bins : option Z) : res num :=
  x <- check_1d x ;; y <- check_1d y ;;
  b <- choose_bins x y bins ;;
  u <- checked_hist x b ;;
  v <- checked_hist y b ;;
  let hx := hist (Z.to_nat b) u in
  let hy := hist (Z.to_nat b) v in
  if reqb (rsum (map INR hx)) 0 || reqb (rsum (map INR hy)) 0 then Ok NaN
  else Ok (Fin (rsum (map (fun t => kl_term (fst t) (snd t)) (combine (normalise hx) (normalise hy))))).

(* ------------------------------------------------------------------ *)
(** ** distance_matrix.py, information part *)

(** the pairs (i, j), i < j, in the order of itertools.combinations *)
Definition pairs (m : nat) : list (nat * nat) := flat_map (fun i => map (pair i) (seq (S i) (m - S i))) (seq 0 m).
Definition set_at (a : nat -> nat -> num) (i j : nat) (v : num) : nat -> nat -> num :=
  fun i' j' => if Nat.eqb i' i && Nat.eqb j' j then v else a i' j'.
(** distance_matrix.py 41-44, the loop over pairs; the first exception ends the call *)
Fixpoint fill_pairs (f : nat -> nat -> res num) (ps : list (nat * nat)) (a : nat -> nat -> num) : res (nat -> nat -> num) :=
  match ps with
  | [] => Ok a
  | (i, j) :: t => v <- f i j ;; fill_pairs f t (set_at (set_at a i j v) j i v)
  end.
(** distance_matrix.py 32-50, 53-55 and 58-82 get_info_distance_matrix with the keyword arguments bins and norm; a column of a
    DataFrame is taken from X.values, so the pair function always sees an array *)
Definition get_info_distance_matrix (X : obj) (method : string) (bins : option Z) (norm : bool) : res obj :=
  if negb (existsb (String.eqb method) ["mutual_info"; "var_info"]%string) then Raise AssertionError
  else
    let f := if String.eqb method "mutual_info" then mutual_info else var_info in
    _ <- check_2d X ;;
    match X with
    | OArr2 a | OFrame _ a =>
        let m := ncol a in
        e <- fill_pairs (fun i j => f (OArr1 (col a i)) (OArr1 (col a j)) bins norm) (pairs m) (fun _ _ => Fin 0) ;;
        let e := if String.eqb method "mutual_info" then fun i j => if Nat.eqb i j then Fin 1 else e i j else e in
        Ok (match X with OFrame names _ => OFrame names (mkArr m m e) | _ => OArr2 (mkArr m m e) end)
    | _ => Raise ValueError
    end.
