(** Model of quantfinlib/math/cov.py.  Arrays hold [num]; eigh, argsort and svd are external. *)
From Coq Require Import Reals ZArith List Arith Bool.
From Verif Require Import Base Num Sim_Model.
Import ListNotations.
Open Scope R_scope.

(** the position at which the Python slice l[k:] of a list of length n starts *)
Definition slice_start (n : nat) (k : Z) : nat :=
  if (k <? 0)%Z then (n - Z.to_nat (- k))%nat else Nat.min (Z.to_nat k) n.

(** math/cov.py 6-56 _cor_block_diagonal.  Block sizes are non-negative integers.  [fill] is one round of the loop 52-54:
    cor[i:i+size, i:i+size] = c *)
Definition fill (a : nat -> nat -> num) (i size : nat) (c : num) : nat -> nat -> num :=
  fun r s => if (Nat.leb i r && Nat.ltb r (i + size) && Nat.leb i s && Nat.ltb s (i + size))%bool then c else a r s.
Fixpoint fill_blocks (a : nat -> nat -> num) (i : nat) (bs : list (nat * num)) : nat -> nat -> num :=
  match bs with
  | [] => a
  | (size, c) :: bs' => fill_blocks (fill a i size c) (i + size) bs'
  end.
(** np.fill_diagonal(a, 1.0) *)
Definition fill_diagonal (a : nat -> nat -> num) : nat -> nat -> num := fun i j => if Nat.eqb i j then Fin 1 else a i j.
Definition cor_block_diagonal (sizes : list nat) (cors : list num) : res arr2 :=
  if negb (Nat.eqb (length sizes) (length cors)) then Raise ValueError
  else if Nat.eqb (length sizes) 0 then Ok (mkArr 0 0 (fun _ _ => Fin 0))
  else
    let N := list_sum sizes in
    Ok (mkArr N N (fill_diagonal (fill_blocks (fun _ _ => Fin 0) 0 (combine sizes cors)))).

(** np.maximum: NaN if either is NaN *)
Definition nmaximum (x y : num) : num := if is_nan x then NaN else if is_nan y then NaN else if nltb x y then y else x.
(** the two assignments cor[cor < -1] = -1; cor[cor > 1] = 1 (lines 78, 119-120) *)
Definition clip1 (x : num) : num := let y := if nltb x (Fin (-1)) then Fin (-1) else x in if ngtb y (Fin 1) then Fin 1 else y.
(** numpy broadcasting of two two-dimensional arrays under an entrywise operation: per dimension, sizes agree or one of them is 1 *)
Definition bdim (a b : nat) : option nat := if Nat.eqb a b then Some a else if Nat.eqb a 1 then Some b else if Nat.eqb b 1 then Some a else None.
Definition bix (a n i : nat) : nat := if Nat.eqb a n then i else 0%nat.
Definition bcast2 (f : num -> num -> num) (x y : arr2) : res arr2 :=
  match bdim (nrow x) (nrow y), bdim (ncol x) (ncol y) with
  | Some r, Some c => Ok (mkArr r c (fun i j => f (at2 x (bix (nrow x) r i) (bix (ncol x) c j)) (at2 y (bix (nrow y) r i) (bix (ncol y) c j))))
  | _, _ => Raise ValueError
  end.
(** np.outer(v, v) *)
Definition outer (v : list num) : arr2 := mkArr (length v) (length v) (fun i j => nmul (nth i v NaN) (nth j v NaN)).
(** math/cov.py 59-79 _cov_to_cor, for two-dimensional arrays; np.diag has as many entries as the smaller dimension *)
Definition cov_to_cor (cov : arr2) (reg : num) : res (arr2 * list num) :=
  let std := map (fun i => nsqrt (nmaximum (at2 cov i i) reg)) (seq 0 (Nat.min (nrow cov) (ncol cov))) in
  cor <- bcast2 ndiv cov (outer std) ;;
  Ok (mkArr (nrow cor) (ncol cor) (fun i j => clip1 (at2 cor i j)), std).
(** 1e-6, the default of cov_reg *)
Definition default_reg : num := Fin (/ 1000000).
(** math/cov.py 82-98 _cor_to_cov, for a two-dimensional cor and a vector std *)
Definition cor_to_cov (cor : arr2) (std : list num) : res arr2 := bcast2 nmul cor (outer std).

(** math/cov.py 101-122 _eig_to_cor: eigen_values[:, None] * eigen_vectors.T broadcasts a single eigenvalue *)
Definition eig_to_cor (values : list num) (vectors : arr2) : res arr2 :=
  let K := length values in let k := ncol vectors in let N := nrow vectors in
  if negb (Nat.eqb K k || Nat.eqb K 1) then Raise ValueError
  else
    let v l := if Nat.eqb K 1 then nth 0 values NaN else nth l values NaN in
    let dot i j := nsum (map (fun l => nmul (at2 vectors i l) (nmul (v l) (at2 vectors j l))) (seq 0 k)) in
    Ok (mkArr N N (fill_diagonal (fun i j => clip1 (dot i j)))).

(** vector[idx] and matrix[:, idx] *)
Definition take (idx : list nat) (v : list num) : list num := map (fun i => nth i v NaN) idx.
Definition take_cols (idx : list nat) (a : arr2) : arr2 := mkArr (nrow a) (length idx) (fun i j => at2 a i (nth j idx 0%nat)).
(** matrix[:, :m] *)
Definition first_cols (m : nat) (a : arr2) : arr2 := mkArr (nrow a) (Nat.min m (ncol a)) (at2 a).

Section Eig.
  (** np.linalg.eigh, np.argsort, and the left factor of np.linalg.svd *)
  Variable eigh : arr2 -> res (list num * arr2).
  Variable argsort : list num -> list nat.
  Variable svd_u : arr2 -> res arr2.

  (** math/cov.py 125-158 _cor_to_eig; taking the real part changes nothing on the real output of eigh *)
  Definition cor_to_eig (cor : arr2) (sort : bool) (k : option Z) : res (list num * arr2) :=
    r <- eigh cor ;;
    let '(values, vectors) := r in
    let '(values1, vectors1) :=
      match k with
      | Some kk => if (kk =? 0)%Z then (values, vectors)
                   else let order := argsort values in
                        let idx := rev (skipn (slice_start (length order) (- kk)) order) in (take idx values, take_cols idx vectors)
      | None => (values, vectors)
      end in
    if sort then let idx := rev (argsort values1) in Ok (take idx values1, take_cols idx vectors1)
    else Ok (values1, vectors1).

  (** math/cov.py 161-189 _eig_complete; v[:k] = eigen_values broadcasts a single value *)
  Definition eig_complete (values : list num) (vectors : arr2) : res (list num * arr2) :=
    let N := nrow vectors in let k := ncol vectors in
    if Nat.eqb k 0 then Raise AssertionError
    else if Nat.ltb k N then
      if negb (Nat.eqb (length values) k || Nat.eqb (length values) 1) then Raise ValueError
      else
        let head := if Nat.eqb (length values) k then values else repeat (nth 0 values NaN) k in
        let rest := ndiv (nsub (nofnat N) (nsum values)) (nofnat (N - k)) in
        e <- svd_u vectors ;;
        Ok (head ++ repeat rest (N - k), mkArr N N (fun i j => if Nat.ltb j k then at2 vectors i j else at2 e i j))
    else Ok (values, vectors).

  (** math/cov.py 192-213 _marcenko_pastur_support, for integer counts *)
  Definition mp_support (var : R) (T N : nat) : res (R * R) :=
    if Nat.eqb N 0 then Raise ZeroDivisionError
    else
      let q := INR T / INR N in
      if Nat.eqb T 0 then Raise ZeroDivisionError
      else Ok (var * ((1 - sqrt (1 / q)) * (1 - sqrt (1 / q))), var * ((1 + sqrt (1 / q)) * (1 + sqrt (1 / q)))).

  (** math/cov.py 216-250 _marchenko_pastur_pdf, for a float array *)
  Definition mp_density (var q lo hi : R) (x : num) : num :=
    if nltb (Fin lo) x && nltb x (Fin hi)
    then nmul (ndiv (Fin q) (nmul (Fin (2 * PI * var)) x)) (nsqrt (nmul (nsub (Fin hi) x) (nsub x (Fin lo))))
    else Fin 0.
  Definition mp_pdf (var : R) (T N : nat) (values : list num) : res (list num) :=
    if rleb var 0 then Raise ValueError
    else
      b <- mp_support var T N ;;
      let '(lo, hi) := b in
      Ok (map (mp_density var (INR T / INR N) lo hi) values).

  (** np.max: fails on an empty array, NaN if any is NaN *)
  Definition np_max (l : list num) : res num :=
    match l with
    | [] => Raise ValueError
    | x :: l' => Ok (fold_left nmaximum l' x)
    end.
  (** np.linspace(0.01, 4, 1000) *)
  Definition mp_grid : list R := map (fun i => 1/100 + INR i * ((4 - 1/100) / 999)) (seq 0 1000).
  (** math/cov.py 278-281: the log-likelihood of one variance *)
  Definition mp_loglik (T N : nat) (values : list num) (var : R) : res num :=
    pdf <- mp_pdf var T N values ;;
    m <- np_max values ;;
    Ok (nsum (map (fun p => nlog (if ngtb p (Fin 0) then p else ndiv (Fin 1) m)) pdf)).
  (** math/cov.py 277-284: the loop over the grid *)
  Fixpoint mp_scan (T N : nat) (values : list num) (grid : list R) (max_ll : num) (max_var : R) : res R :=
    match grid with
    | [] => Ok max_var
    | var :: grid' =>
        ll <- mp_loglik T N values var ;;
        if ngtb ll max_ll then mp_scan T N values grid' ll var else mp_scan T N values grid' max_ll max_var
    end.
  (** math/cov.py 253-285 _marchenko_pastur_fit, for an array *)
  Definition mp_fit (T N : nat) (values : list num) : res R := mp_scan T N values mp_grid (Fin (-1000000000)) 0.

  Record dinfo := mkInfo { i_fitted : bool; i_k : Z; i_var : option R; i_max_noise : option R }.
  (** math/cov.py 390-394: everything from position k on becomes the mean of that part *)
  Definition flatten_tail (values : list num) (k : Z) : list num :=
    let s := slice_start (length values) k in
    firstn s values ++ repeat (nmean (skipn s values)) (length values - s).
  (** math/cov.py 352-395 _eigen_values_denoise.  The first component is the caller's array afterwards (line 376 writes into it). *)
  Definition eigen_values_denoise (values : list num) (T : nat) (k : option Z) : list num * res (list num * dinfo) :=
    let N := length values in
    let values' := if Nat.ltb T N then firstn T values ++ repeat (Fin 0) (N - T) else values in
    (values',
     match k with
     | Some kk => Ok (flatten_tail values' kk, mkInfo false kk None None)
     | None =>
         best <- mp_fit T N (if Nat.ltb T N then firstn (N - T) values' else values') ;;
         b <- mp_support best T N ;;
         let hi := snd b in
         let kk := Z.of_nat (length (filter (fun x => ngeb x (Fin hi)) values')) in
         Ok (flatten_tail values' kk, mkInfo true kk (Some best) (Some hi))
     end).

  (** an argument: a two-dimensional array or something else *)
  Inductive marg := NotArray | Array (a : arr2).

  (** math/cov.py 314-349 _cor_denoise; the last component of the result is the info dictionary *)
  Definition cor_denoise (x : marg) (T : nat) (k : option Z) : res (arr2 * option arr2 * dinfo) :=
    match x with
    | NotArray => Raise TypeError
    | Array cor =>
        if negb (Nat.eqb (nrow cor) (ncol cor)) then Raise ValueError
        else
          match k with
          | None =>
              r <- cor_to_eig cor true None ;;
              let '(values, vectors) := r in
              d <- snd (eigen_values_denoise values T None) ;;
              c <- eig_to_cor (fst d) vectors ;;
              Ok (c, None, snd d)
          | Some kk =>
              r <- cor_to_eig cor true None ;;
              let '(values, vectors) := r in
              ve <- eig_complete (firstn (slice_start (length values) kk) values) (first_cols (slice_start (ncol vectors) kk) vectors) ;;
              c <- eig_to_cor (fst ve) (snd ve) ;;
              Ok (c, Some (snd ve), mkInfo false kk None None)
          end
    end.

  (** math/cov.py 288-311 _cov_denoise *)
  Definition cov_denoise (x : marg) (T : nat) (k : option Z) : res (arr2 * dinfo) :=
    match x with
    | NotArray => Raise TypeError
    | Array cov =>
        cs <- cov_to_cor cov default_reg ;;
        d <- cor_denoise (Array (fst cs)) T k ;;
        let '(cor', _, info) := d in
        c <- cor_to_cov cor' (snd cs) ;;
        Ok (c, info)
    end.
End Eig.

(** math/cov.py 398-415 _random_cov: [z] are the standard normal draws behind np.random.normal(scale=2**0.5/rows, size=(rows, dim)) *)
Definition random_cov (z : nat -> nat -> R) (dim : nat) : res arr2 :=
  if Nat.eqb dim 0 then Raise ZeroDivisionError
  else
    let rows := (2 * dim)%nat in
    let scale := sqrt 2 / INR rows in
    Ok (mkArr dim dim (fun i j => nsum (map (fun t => nmul (Fin (scale * z t i)) (Fin (scale * z t j))) (seq 0 rows)))).
(** math/cov.py 418-433 _random_cor *)
Definition random_cor (z : nat -> nat -> R) (dim : nat) : res arr2 :=
  cov <- random_cov z dim ;; cs <- cov_to_cor cov default_reg ;; Ok (fst cs).
