(** Model of OrnsteinUhlenbeck._fit_np with the rank decision of np.linalg.lstsq(A, y, rcond=None): singular values of A = [x, 1] that are at
    most rcond times the largest one, rcond = eps * max(rows, columns), count as zero.  The singular values are the exact ones. *)
From Coq Require Import Reals List Arith Bool.
From Verif Require Import Base Num Sums Sim_Model.
Import ListNotations.
Open Scope R_scope.

(** np.finfo(float).eps *)
Definition eps : R := / 2 ^ 52.
(** np.linalg.lstsq(A, y, rcond=None)[0] with A = [x, 1], as called in _ou.py 216-219.  l1 and l2 are the squares of the singular values, the
    eigenvalues of A^T A, and (u, w) is a singular vector of l1; with both singular values this is ordinary least squares. *)
Definition lstsq_rcond (xs ys : list num) : res (num * num) :=
  if forallb is_fin xs && forallb is_fin ys then
    let x := map real_of xs in let y := map real_of ys in
    let n := INR (length x) in
    let sx := rsum x in let sxx := rsum (map (fun a => a * a) x) in
    let sy := rsum y in let sxy := rsum (map (fun p => fst p * snd p) (combine x y)) in
    let d := sqrt ((sxx - n) * (sxx - n) + 4 * (sx * sx)) in
    let l1 := (sxx + n + d) / 2 in let l2 := (sxx + n - d) / 2 in
    if rleb (sqrt l2) (eps * INR (Nat.max (length x) 2) * sqrt l1) then
      let uw := if rleb n sxx then (l1 - n, sx) else (sx, l1 - sxx) in
      let u := fst uw in let w := snd uw in
      let k := (u * sxy + w * sy) / (l1 * (u * u + w * w)) in
      Ok (Fin (u * k), Fin (w * k))
    else lstsq_line xs ys
  else Raise LinAlgError.

Section Solver.
  Variable line : list num -> list num -> res (num * num).
  (** _ou.py 209-236: one turn of the loop, for any least squares solver *)
  Definition ou_fit_col_by (x : arr2) (i : nat) : res (num * num * list num) :=
    let lx := removelast (col x i) in
    let ly := tl (col x i) in
    p <- line lx ly ;;
    let q := if nleb (fst p) (Fin slope_tol) then (Fin slope_tol, nmean ly) else p in
    Ok (fst q, snd q, map (fun w => nsub (snd w) (nadd (nmul (fst q) (fst w)) (snd q))) (combine lx ly)).
  (** _ou.py 197-253 OrnsteinUhlenbeck._fit_np, for any least squares solver *)
  Definition ou_fit_by (chol : arr2 -> res arr2) (m : oupar) (x : arr2) (dt : num) : oupar * res unit :=
    match mapM (ou_fit_col_by x) (seq 0 (ncol x)) with
    | Raise e => (m, Raise e)
    | Ok cs =>
        let residuals := mkArr (nrow x - 1) (ncol x) (fun t j => nth t (snd (nth j cs (NaN, NaN, []))) NaN) in
        let finish cor L :=
          match rev cs with
          | [] => (mkOU (ou_mean m) (ou_mrr m) (ou_vol m) cor L, Raise UnboundLocalError)
          | (slope, intercept, _) :: _ =>
              let mrr := ndiv (nneg (nlog slope)) dt in
              let mean := ndiv intercept (nsub (Fin 1) slope) in
              let vol := map (fun c => nsqrt (ndiv (nmul (nmul (Fin 2) mrr) (nsqr (nstd 1 (snd c))))
                                                   (nsub (Fin 1) (nsqr slope)))) cs in
              (mkOU (Scal mean) (Scal mrr) (Row vol) cor L, Ok tt)
          end in
        if Nat.ltb 1 (ncol x) then
          let c := corrcoef residuals in
          match chol c with
          | Ok l => finish (Some c) (Some l)
          | Raise e => (mkOU (ou_mean m) (ou_mrr m) (ou_vol m) (Some c) (ou_L m), Raise e)
          end
        else finish None None
    end.
End Solver.
