(** Model of the eigenvalue functions of quantfinlib/math/cov.py on arrays of integers.  np.zeros_like and copy() of an integer array are
    integer arrays, and assigning floats to their entries drops the fractional part.  Integers are unbounded (int64 overflow is left out). *)
From Coq Require Import Reals ZArith List Arith Bool.
From Verif Require Import Base Num Cov_Model.
Import ListNotations.
Open Scope R_scope.

(** assigning a float to an entry of an integer array: towards zero *)
Definition to_int (r : R) : Z := if rltb r 0 then (- Int_part (- r))%Z else Int_part r.

(** math/cov.py 216-250 _marchenko_pastur_pdf *)
Definition mp_pdf_int (var : R) (T N : nat) (values : list Z) : res (list Z) :=
  if rleb var 0 then Raise ValueError
  else
    b <- mp_support var T N ;;
    let '(lo, hi) := b in
    Ok (map (fun x => if rltb lo (IZR x) && rltb (IZR x) hi
                      then to_int (INR T / INR N / (2 * PI * var * IZR x) * sqrt ((hi - IZR x) * (IZR x - lo)))
                      else 0%Z) values).

(** np.max of an integer array *)
Definition np_max_int (l : list Z) : res Z :=
  match l with [] => Raise ValueError | x :: l' => Ok (fold_left Z.max l' x) end.

Section Fit.
  (** what is stored for an infinite float (1.0 / np.max when the maximum is 0): depends on the machine *)
  Variable stored_inf : Z.
  (** math/cov.py 278-281: lines 279-280 fill the entries without density with 1.0 / np.max, in the same integer array *)
  Definition mp_loglik_int (T N : nat) (values : list Z) (var : R) : res num :=
    pdf <- mp_pdf_int var T N values ;;
    m <- np_max_int values ;;
    let f := if (m =? 0)%Z then stored_inf else to_int (1 / IZR m) in
    Ok (nsum (map (fun p => nlog (Fin (IZR (if (p >? 0)%Z then p else f)))) pdf)).
  (** math/cov.py 277-284 *)
  Fixpoint mp_scan_int (T N : nat) (values : list Z) (grid : list R) (max_ll : num) (max_var : R) : res R :=
    match grid with
    | [] => Ok max_var
    | var :: grid' =>
        ll <- mp_loglik_int T N values var ;;
        if ngtb ll max_ll then mp_scan_int T N values grid' ll var else mp_scan_int T N values grid' max_ll max_var
    end.
  (** math/cov.py 253-285 _marchenko_pastur_fit *)
  Definition mp_fit_int (T N : nat) (values : list Z) : res R := mp_scan_int T N values mp_grid (Fin (-1000000000)) 0.

  (** math/cov.py 393-394; the mean of an empty part is NaN, and is assigned to no entry *)
  Definition flatten_tail_int (values : list Z) (k : Z) : list Z :=
    let s := slice_start (length values) k in
    let m := rmean (map IZR (skipn s values)) in
    firstn s values ++ repeat (to_int m) (length values - s).
  (** math/cov.py 352-395 _eigen_values_denoise; the first component is the caller's array afterwards *)
  Definition eigen_values_denoise_int (values : list Z) (T : nat) (k : option Z) : list Z * res (list Z * dinfo) :=
    let N := length values in
    let values' := if Nat.ltb T N then firstn T values ++ repeat 0%Z (N - T) else values in
    (values',
     match k with
     | Some kk => Ok (flatten_tail_int values' kk, mkInfo false kk None None)
     | None =>
         best <- mp_fit_int T N (if Nat.ltb T N then firstn (N - T) values' else values') ;;
         b <- mp_support best T N ;;
         let hi := snd b in
         let kk := Z.of_nat (length (filter (fun x => rleb hi (IZR x)) values')) in
         Ok (flatten_tail_int values' kk, mkInfo true kk (Some best) (Some hi))
     end).
End Fit.
