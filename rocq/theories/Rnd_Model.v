(** Parts of the library in rounded arithmetic: every operation of the code rounds its result.  The other files model the same code with
    exact numbers; here a [machine] says how results are rounded and which exponential and logarithm are used.
    Not modelled: overflow (a machine has no largest number) and signed zeros.  x ** 0.5 and x ** 2 are taken to be the rounded square root and
    the rounded square. *)
From Coq Require Import Reals String ZArith List Arith Bool.
From Verif Require Import Base Num Sim_Model Dist_Model.
From Verif Require Feat_Ops Feat_Model.
Import ListNotations.
Open Scope R_scope.

Record machine := mkMachine { rnd : R -> R; m_exp : R -> R; m_log : R -> R }.
(** no rounding *)
Definition exact : machine := mkMachine (fun r => r) exp ln.

(** ** operations: the IEEE rules for NaN and infinities, the finite results rounded *)
Definition fl (M : machine) (x : num) : num := match x with Fin r => Fin (rnd M r) | y => y end.
Definition fadd M x y := fl M (nadd x y).
Definition fsub M x y := fl M (nsub x y).
Definition fmul M x y := fl M (nmul x y).
Definition fdiv M x y := fl M (ndiv x y).
Definition fsqrt M x := fl M (nsqrt x).
Definition fsqr M x := fmul M x x.
Definition fexp M x := match x with Fin r => Fin (m_exp M r) | y => nexp y end.
Definition flog M x := match x with Fin r => if rltb 0 r then Fin (m_log M r) else nlog x | y => nlog y end.

(** ** distance/correlation.py *)
(** correlation.py 42-50 *)
Definition r_conversion (M : machine) (method : string) (x : num) : res num :=
  if String.eqb method "angular" then Ok (fsqrt M (fdiv M (fsub M (Fin 1) x) (Fin 2)))
  else if String.eqb method "abs_angular" then Ok (fsqrt M (fsub M (Fin 1) (nabs x)))
  else if String.eqb method "squared_angular" then Ok (fsqrt M (fsub M (Fin 1) (fsqr M x)))
  else Raise NotImplementedError.
Definition r_conversion_all (M : machine) (method : string) (a : arr2) : res arr2 :=
  if existsb (String.eqb method) ["angular"; "abs_angular"; "squared_angular"]%string
  then Ok (amap (fun x => match r_conversion M method x with Ok d => d | Raise _ => NaN end) a)
  else Raise NotImplementedError.
(** correlation.py 29-39; the comparison with the transposed array is made in exact arithmetic *)
Definition r_convert (M : machine) (method : string) (x : obj) : res obj :=
  match x with
  | OScalar c =>
      d <- r_conversion M method (nclip (Fin (-1)) (Fin 1) c) ;; Ok (OScalar (nclip (Fin 0) (Fin 1) d))
  | OArr2 a =>
      _ <- validate_corr x ;;
      d <- r_conversion_all M method (amap (nclip (Fin (-1)) (Fin 1)) a) ;;
      Ok (OArr2 (fill_diag (Fin 0) (amap (nclip (Fin 0) (Fin 1)) d)))
  | OFrame names a =>
      d <- r_conversion_all M method (amap (nclip (Fin (-1)) (Fin 1)) a) ;;
      Ok (OFrame names (amap (nclip (Fin 0) (Fin 1)) d))
  | OSeries l =>
      d <- mapM (fun v => r_conversion M method (nclip (Fin (-1)) (Fin 1) v)) l ;;
      Ok (OSeries (map (nclip (Fin 0) (Fin 1)) d))
  | OArr1 _ | OArrN _ => Raise AssertionError
  | OOther => Raise TypeError
  end.

(** np.cov and np.corrcoef(rowvar=False) (called by users of correlation.py 53-107): centred products summed from the left, times 1 / (n - 1), divided by the
    standard deviation of the row, then by the one of the column, clipped *)
Definition r_sum (M : machine) (l : list num) : num := fold_left (fadd M) l (Fin 0).
Definition r_cov (M : machine) (x y : list num) : num :=
  let mean l := fdiv M (r_sum M l) (nofnat (length l)) in
  fmul M (r_sum M (map (fun p => fmul M (fsub M (fst p) (mean x)) (fsub M (snd p) (mean y))) (combine x y)))
         (fdiv M (Fin 1) (nofnat (length x - 1))).
Definition r_corrcoef (M : machine) (a : arr2) : arr2 :=
  let sd j := fsqrt M (r_cov M (col a j) (col a j)) in
  mkArr (ncol a) (ncol a) (fun i j => nclip (Fin (-1)) (Fin 1) (fdiv M (fdiv M (r_cov M (col a i) (col a j)) (sd i)) (sd j))).

(** pandas DataFrame.corr(method="pearson") (called in distance_matrix.py 92) on two columns without missing values: Welford's updates *)
Record wstate := mkW { w_n : R; w_mx : R; w_my : R; w_sx : R; w_sy : R; w_c : R }.
Definition w_step (M : machine) (s : wstate) (p : R * R) : wstate :=
  let r := rnd M in
  let n := w_n s + 1 in
  let dx := r (fst p - w_mx s) in let dy := r (snd p - w_my s) in
  let mx := r (w_mx s + r (r (1 / n) * dx)) in let my := r (w_my s + r (r (1 / n) * dy)) in
  mkW n mx my (r (w_sx s + r (r (fst p - mx) * dx))) (r (w_sy s + r (r (snd p - my) * dy))) (r (w_c s + r (r (fst p - mx) * dy))).
Definition w_run (M : machine) (l : list (R * R)) : wstate := fold_left (w_step M) l (mkW 0 0 0 0 0 0).
Definition r_pearson (M : machine) (x y : list R) : num :=
  let s := w_run M (combine x y) in
  let divisor := rnd M (sqrt (rnd M (w_sx s * w_sy s))) in
  if reqb divisor 0 then NaN else nclip (Fin (-1)) (Fin 1) (Fin (rnd M (w_c s / divisor))).

(** the same on columns with missing values, and the matrix: pandas computes the entries on and below the diagonal and copies them *)
Definition fval (x : num) : R := match x with Fin a => a | _ => 0 end.
Definition r_pandas_pearson (M : machine) (x y : list num) : num :=
  let ps := complete x y in
  if Nat.ltb (length ps) 1 then NaN else r_pearson M (map fval (map fst ps)) (map fval (map snd ps)).
Definition r_pearson_matrix (M : machine) (a : arr2) : arr2 :=
  mkArr (ncol a) (ncol a) (fun i j => r_pandas_pearson M (col a (Nat.max i j)) (col a (Nat.min i j))).
(** distance_matrix.py 85-162, Pearson correlations without transformer *)
Definition r_corr_distance_matrix (M : machine) (X : obj) (dist_method : string) : res obj :=
  _ <- check_2d X ;;
  c <- match X with
       | OArr2 a => Ok (OArr2 (r_pearson_matrix M a))
       | OFrame names a => Ok (OFrame names (r_pearson_matrix M a))
       | _ => Raise ValueError
       end ;;
  _ <- check_2d c ;;
  if negb (existsb (String.eqb dist_method) dist_methods) then Raise AssertionError else r_convert M dist_method c.

(** ** feature/indicators *)
(** pandas ewm(alpha).mean(), the loop of Feat_Ops.ewm_step with rounding *)
Definition r_ewm_step (M : machine) (a : R) (s : Feat_Ops.ewm_state) (x : num) : Feat_Ops.ewm_state :=
  let r := rnd M in
  let '(m, old, nobs) := s in
  match m, Feat_Ops.present x with
  | Some mean, Some cur =>
      let old' := r (old * r (1 - a)) in
      (Some (if reqb mean cur then mean else r (r (r (old' * mean) + r (1 * cur)) / r (old' + 1))), r (old' + 1), S nobs)
  | Some mean, None => (Some mean, r (old * r (1 - a)), nobs)
  | None, Some cur => (Some cur, old, S nobs)
  | None, None => (None, old, nobs)
  end.
Fixpoint r_ewm_run (M : machine) (a : R) (minp : nat) (s : Feat_Ops.ewm_state) (l : list num) : list num :=
  match l with
  | [] => []
  | x :: l' => let s' := r_ewm_step M a s x in Feat_Ops.ewm_out minp s' :: r_ewm_run M a minp s' l'
  end.
(** Series.rolling(w).mean(): pandas' one-pass loop (roll_mean, add_mean, remove_mean, calc_mean) with compensated summation.  State: number of
    values in the window, their sum, how many are negative, the two compensations, and how often the last value was seen in a row *)
Record mstate := mkMS { ms_n : nat; ms_sum : R; ms_neg : nat; ms_ca : R; ms_cr : R; ms_same : nat; ms_prev : num }.
Definition ms_add (M : machine) (s : mstate) (x : num) : mstate :=
  match Feat_Ops.present x with
  | None => s
  | Some v =>
      let r := rnd M in
      let y := r (v - ms_ca s) in let t := r (ms_sum s + y) in
      mkMS (S (ms_n s)) t (if rltb v 0 then S (ms_neg s) else ms_neg s) (r (r (t - ms_sum s) - y)) (ms_cr s)
           (if neqb (Fin v) (ms_prev s) then S (ms_same s) else 1) (Fin v)
  end.
Definition ms_remove (M : machine) (s : mstate) (x : num) : mstate :=
  match Feat_Ops.present x with
  | None => s
  | Some v =>
      let r := rnd M in
      let y := r (- v - ms_cr s) in let t := r (ms_sum s + y) in
      mkMS (ms_n s - 1) t (if rltb v 0 then ms_neg s - 1 else ms_neg s) (ms_ca s) (r (r (t - ms_sum s) - y)) (ms_same s) (ms_prev s)
  end.
Definition ms_out (M : machine) (w : nat) (s : mstate) : num :=
  if Nat.leb w (ms_n s) && Nat.ltb 0 (ms_n s) then
    let m := rnd M (ms_sum s / INR (ms_n s)) in
    if Nat.leb (ms_n s) (ms_same s) then ms_prev s
    else if Nat.eqb (ms_neg s) 0 && rltb m 0 then Fin 0
    else if Nat.eqb (ms_neg s) (ms_n s) && rltb 0 m then Fin 0
    else Fin m
  else NaN.
(** a fresh window holding only value number i *)
Definition ms_fresh (M : machine) (l : list num) (i : nat) : mstate :=
  let p := match Feat_Ops.present (nth i l NaN) with Some v => Fin v | None => NaN end in
  ms_add M (mkMS 0 0 0 0 0 0 p) (nth i l NaN).
Fixpoint ms_at (M : machine) (w : nat) (l : list num) (i : nat) : mstate :=
  match i with
  | O => ms_fresh M l 0
  | S i' => if Nat.eqb w 1 then ms_fresh M l i
            else let s := ms_at M w l i' in ms_add M (if Nat.leb w i then ms_remove M s (nth (i - w) l NaN) else s) (nth i l NaN)
  end.
Definition r_roll_mean (M : machine) (w : nat) (l : list num) : list num := map (fun i => ms_out M w (ms_at M w l i)) (seq 0 (length l)).
(** Series.diff() with rounding *)
Definition r_diff (M : machine) (l : list num) : list num := Feat_Ops.lift2 (fsub M) l (Feat_Ops.shift 1 l).
(** indicators/_rsi.py 47-50, for the smoothing factor a of the span *)
Definition r_strength (M : machine) (up down : num) : num := fmul M (Fin 100) (fdiv M up (fadd M up down)).
Definition r_gains (M : machine) (ts : list num) : list num := Feat_Ops.where0 (fun d => ngtb d (Fin 0)) (fun d => d) (r_diff M ts).
Definition r_losses (M : machine) (ts : list num) : list num := Feat_Ops.where0 (fun d => nltb d (Fin 0)) nneg (r_diff M ts).
Definition r_ewm_rsi (M : machine) (a : R) (ts : list num) : list num :=
  Feat_Ops.lift2 (r_strength M) (r_ewm_run M a 0 (None, 1, 0%nat) (r_gains M ts)) (r_ewm_run M a 0 (None, 1, 0%nat) (r_losses M ts)).
(** indicators/_rsi.py 24-27, for a window of at least one row *)
Definition r_rsi (M : machine) (w : nat) (ts : list num) : list num :=
  Feat_Ops.lift2 (r_strength M) (r_roll_mean M w (r_gains M ts)) (r_roll_mean M w (r_losses M ts)).
(** indicators/_bands.py 66-119 *)
Definition r_upper (M : machine) (b : Feat_Model.bands) : list num :=
  Feat_Ops.lift2 (fadd M) (Feat_Model.b_mean b) (map (fun s => fmul M s (Feat_Model.b_mult b)) (Feat_Model.b_std b)).
Definition r_lower (M : machine) (b : Feat_Model.bands) : list num :=
  Feat_Ops.lift2 (fsub M) (Feat_Model.b_mean b) (map (fun s => fmul M s (Feat_Model.b_mult b)) (Feat_Model.b_std b)).
Definition r_bandwidth (M : machine) (b : Feat_Model.bands) : list num :=
  Feat_Ops.lift2 (fdiv M) (map (fun s => fmul M (fmul M (Fin 2) s) (Feat_Model.b_mult b)) (Feat_Model.b_std b)) (Feat_Model.b_mean b).
(** indicators/_base.py 178-182 *)
Definition r_true_range (M : machine) (high low close : list num) : list num :=
  let tr1 := Feat_Ops.lift2 (fsub M) high low in
  let tr2 := map nabs (Feat_Ops.lift2 (fsub M) high (Feat_Ops.shift 1 close)) in
  let tr3 := map nabs (Feat_Ops.lift2 (fsub M) low (Feat_Ops.shift 1 close)) in
  map (fun i => Feat_Model.row_max (nth i tr1 NaN) (nth i tr2 NaN) (nth i tr3 NaN)) (seq 0 (Nat.max (length tr1) (Nat.max (length tr2) (length tr3)))).
Definition r_average_true_range (M : machine) (high low close : list num) (a : R) : list num :=
  r_ewm_run M a 0 (None, 1, 0%nat) (r_true_range M high low close).

(** ** feature/micro_structure/_price_sequences.py 233: the spread for one value of alpha *)
Definition r_spread (M : machine) (alpha : num) : num :=
  let e := fexp M alpha in fdiv M (fmul M (Fin 2) (fsub M e (Fin 1))) (fadd M e (Fin 1)).

(** ** sim: models without correlations (the factor L of the record is not looked at) *)
(** _base.py 57-75 *)
Definition r_fill_noise (M : machine) (V : nat) (loc scale : list num) (z : noise) : res (nat -> nat -> num) :=
  if negb (bfits scale V) then Raise ValueError
  else if negb (bfits loc V) then Raise ValueError
  else Ok (fun r v => fadd M (fmul M (z (r * V + v)%nat) (bget scale v)) (bget loc v)).
Fixpoint r_cumsum (M : machine) (f : nat -> nat -> num) (t c : nat) : num :=
  match t with O => f O c | S t' => fadd M (r_cumsum M f t' c) (f t c) end.
(** _bm.py 191-218 *)
Definition r_bm_path (M : machine) (m : bmpar) (z : noise) (x0 : list num) (dt : num) (steps paths : nat) : res arr2 :=
  let V := length (bm_drift m) in
  let C := (V * paths)%nat in
  row0 <- set_x0 x0 C ;;
  if Nat.eqb V 0 then Raise ValueError else
  dx <- r_fill_noise M V (map (fun d => fmul M d dt) (bm_drift m)) (map (fun s => fmul M s (fsqrt M dt)) (bm_vol m)) z ;;
  Ok (mkArr (S steps) C (r_cumsum M (filled V C row0 dx))).
(** _gbm.py 199-230 *)
Definition r_gbm_mean (M : machine) (m : bmpar) : res (list num) :=
  let d := bm_drift m in let v := bm_vol m in
  if Nat.eqb (length d) (length v) || Nat.eqb (length d) 1 || Nat.eqb (length v) 1 then
    Ok (map (fun j => fsub M (bget d j) (fmul M (Fin (1/2)) (fsqr M (bget v j)))) (seq 0 (if Nat.eqb (length d) 1 then length v else length d)))
  else Raise ValueError.
Definition r_gbm_path (M : machine) (m : bmpar) (z : noise) (x0 : list num) (dt : num) (steps paths : nat) : res arr2 :=
  let V := length (bm_drift m) in
  let C := (V * paths)%nat in
  row0 <- set_x0 (map (flog M) x0) C ;;
  if Nat.eqb V 0 then Raise ValueError else
  mu <- r_gbm_mean M m ;;
  dx <- r_fill_noise M V (map (fun d => fmul M d dt) mu) (map (fun s => fmul M s (fsqrt M dt)) (bm_vol m)) z ;;
  Ok (mkArr (S steps) C (fun t c => fexp M (r_cumsum M (filled V C row0 dx) t c))).
(** _ou.py 265-267 *)
Definition r_ou_factor (M : machine) (m : oupar) (dt : num) : param := pmap (fun k => fexp M (fmul M (nneg k) dt)) (ou_mrr m).
Definition r_ou_mean_term (M : machine) (m : oupar) (dt : num) : res param :=
  pmap2 (fmul M) (ou_mean m) (pmap (fun f => fsub M (Fin 1) f) (r_ou_factor M m dt)).
Definition r_ou_scale (M : machine) (m : oupar) (dt : num) : res param :=
  q <- pmap2 (fdiv M) (pmap (fsqr M) (ou_vol m)) (pmap (fmul M (Fin 2)) (ou_mrr m)) ;;
  r <- pmap2 (fmul M) q (pmap (fun k => fsub M (Fin 1) (fexp M (fmul M (fmul M (Fin (-2)) k) dt))) (ou_mrr m)) ;;
  Ok (pmap (fsqrt M) r).
(** _ou.py 255-287 *)
Fixpoint r_ou_run (M : machine) (fac : list num) (f : nat -> nat -> num) (t c : nat) : num :=
  match t with O => f O c | S t' => fadd M (f t c) (fmul M (r_ou_run M fac f t' c) (bget fac c)) end.
Definition r_ou_path (M : machine) (m : oupar) (z : noise) (x0 : list num) (dt : num) (steps paths : nat) : res arr2 :=
  mt <- r_ou_mean_term M m dt ;;
  sc <- r_ou_scale M m dt ;;
  match ou_mean m with
  | Scal _ => Raise IndexError
  | Row me =>
      let V := length me in
      let C := (V * paths)%nat in
      row0 <- set_x0 x0 C ;;
      if Nat.eqb V 0 then Raise ValueError else
      dx <- r_fill_noise M V (pflat mt) (pflat sc) z ;;
      let fac := pflat (r_ou_factor M m dt) in
      if Nat.eqb steps 0 || bfits fac C then Ok (mkArr (S steps) C (r_ou_run M fac (filled V C row0 dx)))
      else Raise ValueError
  end.
