(** Model of quantfinlib/sim: _base.py, _bm.py, _gbm.py, _ou.py, _quasi_random.py. *)
From Coq Require Import Reals String Decimal DecimalString ZArith List Arith Bool.
From Verif Require Import Base Num.
Import ListNotations.
Open Scope R_scope.

(* ------------------------------------------------------------------ *)
(** ** Two-dimensional arrays *)

(** A numpy array of shape (nrow, ncol); [at2] is only meaningful inside the shape. *)
Record arr2 := mkArr { nrow : nat; ncol : nat; at2 : nat -> nat -> num }.

Definition row (a : arr2) (i : nat) : list num := map (at2 a i) (seq 0 (ncol a)).
Definition col (a : arr2) (j : nat) : list num := map (fun i => at2 a i j) (seq 0 (nrow a)).
Definition drop_first (a : arr2) : arr2 := mkArr (nrow a - 1) (ncol a) (fun i j => at2 a (S i) j).

(** Value of a one-row operand at column j under numpy broadcasting. *)
Definition bget (l : list num) (j : nat) : num := if Nat.eqb (length l) 1 then nth 0 l NaN else nth j l NaN.

(** A one-row operand can be combined in place with an array of n columns. *)
Definition bfits (l : list num) (n : nat) : bool := Nat.eqb (length l) 1 || Nat.eqb (length l) n.

(* ------------------------------------------------------------------ *)
(** ** Input data *)

(** Index of a pandas object: a DatetimeIndex (name, stamps) or anything else. *)
Inductive dindex := NoDt | Dt (name : option string) (stamps : list Z).

(** Arguments accepted by fit, nll, aic, bic and (as x0) path_sample.
    Simplification: Series and column names are strings; arrays have at most two dimensions. *)
Inductive sdata :=
| DScalar (v : num)
| DList (l : list num)
| DNp1 (l : list num)
| DNp2 (a : arr2)
| DSeries (name : string) (ix : dindex) (l : list num)
| DFrame (names : list string) (ix : dindex) (a : arr2)
| DOther.

Definition col_vec (l : list num) : arr2 := mkArr (length l) 1 (fun i _ => nth i l NaN).
Definition row_vec (l : list num) : arr2 := mkArr 1 (length l) (fun _ j => nth j l NaN).

(** _base.py 25-37 _to_numpy followed by 165-166 (a 1-d array becomes a column). *)
Definition to_numpy2 (x : sdata) : res arr2 :=
  match x with
  | DNp1 l | DSeries _ _ l => Ok (col_vec l)
  | DNp2 a | DFrame _ _ a => Ok a
  | DList l => Ok (row_vec l)
  | DScalar v => Ok (row_vec [v])
  | DOther => Raise ValueError
  end.

(** _base.py 25-37 _to_numpy followed by reshape(1, -1) (221-223; also the constructors, _bm.py 146-147). *)
Definition to_row (x : sdata) : res (list num) :=
  match x with
  | DNp1 l | DSeries _ _ l | DList l => Ok l
  | DNp2 a | DFrame _ _ a => Ok (concat (map (row a) (seq 0 (nrow a))))
  | DScalar v => Ok [v]
  | DOther => Raise ValueError
  end.

(** _base.py 40-46 _get_column_names. *)
Definition get_column_names (x : sdata) : option (list string) :=
  match x with
  | DFrame names _ _ => Some names
  | DSeries name _ _ => Some [name]
  | _ => None
  end.

(** _base.py 49-54 _get_date_time_index. *)
Definition get_date_time_index (x : sdata) : dindex :=
  match x with DFrame _ ix _ | DSeries _ ix _ => ix | _ => NoDt end.

(** type(x), as far as the code looks at it. *)
Inductive cont := CNone | CSeries | CFrame | COther.
Definition type_of (x : sdata) : cont :=
  match x with DSeries _ _ _ => CSeries | DFrame _ _ _ => CFrame | _ => COther end.

(* ------------------------------------------------------------------ *)
(** ** State of a model object *)

(** _base.py 119-133 _DateTimeIndexInfo. *)
Record idxinfo := mkIx { ix_has : bool; ix_name : option string; ix_min : option Z; ix_max : option Z;
                         ix_freq : option string }.
Definition no_index : idxinfo := mkIx false None None None None.

Definition zmin_opt (l : list Z) : option Z := match l with [] => None | a :: t => Some (fold_left Z.min t a) end.
Definition zmax_opt (l : list Z) : option Z := match l with [] => None | a :: t => Some (fold_left Z.max t a) end.

(** [infer] stands for pandas.infer_freq (which may raise ValueError). *)
Definition index_info (infer : list Z -> res (option string)) (x : sdata) : res idxinfo :=
  match get_date_time_index x with
  | NoDt => Ok no_index
  | Dt name st => f <- infer st ;; Ok (mkIx true name (zmin_opt st) (zmax_opt st) f)
  end.

(** _base.py 137-149: the fit_* attributes. *)
Record fitinfo := mkFit { f_cont : cont; f_rows : option nat; f_cols : option nat; f_idx : idxinfo;
                          f_names : option (list string); f_dt : option num;
                          f_x0 : option (list num); f_xn : option (list num) }.
Definition unfitted : fitinfo := mkFit CNone None None no_index None None None None.

(** timeseries.py 132-145: durations in years. *)
Definition duration_table : list (string * R) :=
  [("D"%string, 1/365); ("B"%string, 1/252); ("W"%string, 7/365); ("M"%string, 1/12); ("ME"%string, 1/12);
   ("MS"%string, 1/12); ("Q"%string, 1/4); ("QE"%string, 1/4); ("QS"%string, 1/4); ("Y"%string, 1);
   ("YE"%string, 1); ("YS"%string, 1)].
(** timeseries.py 148-199 time_series_freq_to_duration. *)
Definition freq_to_duration (f : string) : option R :=
  match find (fun p => String.eqb (fst p) f) duration_table with Some p => Some (snd p) | None => None end.

(** _base.py 155-182 _preprocess_fit_x_and_dt.  The attributes are assigned one after the other, so the state left by
    an exception is part of the result. *)
Definition preprocess_fit (infer : list Z -> res (option string)) (st : fitinfo) (x : sdata) (dt : option num)
  : fitinfo * res (arr2 * num) :=
  let st := mkFit (type_of x) (f_rows st) (f_cols st) (f_idx st) (get_column_names x) (f_dt st) (f_x0 st) (f_xn st) in
  match index_info infer x with
  | Raise e => (st, Raise e)
  | Ok ix =>
      let st := mkFit (f_cont st) (f_rows st) (f_cols st) ix (f_names st) (f_dt st) (f_x0 st) (f_xn st) in
      match to_numpy2 x with
      | Raise e => (st, Raise e)
      | Ok v =>
          if Nat.eqb (nrow v) 0
          then (mkFit (f_cont st) (f_rows st) (Some (ncol v)) ix (f_names st) (f_dt st) (f_x0 st) (f_xn st),
                Raise IndexError)
          else
            let st := mkFit (f_cont st) (Some (nrow v)) (Some (ncol v)) ix (f_names st) (f_dt st)
                            (Some (row v 0)) (Some (row v (nrow v - 1))) in
            let done d := (mkFit (f_cont st) (f_rows st) (f_cols st) ix (f_names st) (Some d) (f_x0 st) (f_xn st),
                           Ok (v, d)) in
            match dt with
            | Some d => done d
            | None =>
                match ix_freq ix with
                | Some f => match freq_to_duration f with
                            | Some d => done (Fin d)
                            | None => (st, Raise ValueError)
                            end
                | None => done (Fin (1 / 252))
                end
            end
      end
  end.

(* ------------------------------------------------------------------ *)
(** ** Arguments of path_sample *)

Inductive x0arg := X0None | X0Str (s : string) | X0Data (x : sdata).

Definition oelse {A} (a b : option A) : option A := match a with Some _ => a | None => b end.
Definition is_some {A} (a : option A) : bool := match a with Some _ => true | None => false end.

(** _base.py 184-238 _preprocess_sim_path_args; [default] is x0_default of the model class. *)
Definition preprocess_path (st : fitinfo) (default : num) (x0 : x0arg) (dt : option num)
  (label_start : option Z) (label_freq : option string)
  : res (list num * num * option Z * option string) :=
  let need := is_some label_start || is_some label_freq || ix_has (f_idx st) in
  let ls d := if need then oelse label_start d else label_start in
  p <- match x0 with
       | X0None => match f_x0 st with
                   | Some r => Ok (r, ls (ix_min (f_idx st)))
                   | None => Ok ([default], label_start)
                   end
       | X0Str s =>
           if String.eqb s "first" then
             match f_x0 st with Some r => Ok (r, ls (ix_min (f_idx st))) | None => Raise ValueError end
           else if String.eqb s "last" then
             match f_x0 st, f_xn st with
             | Some _, Some r => Ok (r, ls (ix_max (f_idx st)))
             | Some _, None => Raise AttributeError
             | None, _ => Raise ValueError
             end
           else Raise ValueError
       | X0Data x => r <- to_row x ;; Ok (r, label_start)
       end ;;
  d <- match dt with
       | Some d => Ok d
       | None => match f_x0 st with
                 | Some _ => match f_dt st with Some d => Ok d | None => Raise AssertionError end
                 | None => Ok (Fin (1 / 252))
                 end
       end ;;
  if ngtb d (Fin 0) then
    Ok (fst p, d, snd p, if need then oelse label_freq (ix_freq (f_idx st)) else label_freq)
  else Raise AssertionError.

(* ------------------------------------------------------------------ *)
(** ** Formatting the result *)

(** decimal representation of a natural number, as str(i) *)
Definition str_nat (i : nat) : string := NilEmpty.string_of_uint (Nat.to_uint i).

(** _base.py 240-260 _make_columns_names. *)
Definition make_columns_names (st : fitinfo) (num_target num_paths : nat) (columns : option (list string))
  : res (list string) :=
  if Nat.eqb num_paths 0 then Raise ZeroDivisionError else
  let nb := (num_target / num_paths)%nat in
  if negb (Nat.eqb num_target (num_paths * nb)) then Raise AssertionError else
  base <- match columns with
          | Some c => if Nat.eqb (length c) nb then Ok c else Raise AssertionError
          | None =>
              match f_names st with
              | Some ((_ :: _) as c) => if Nat.eqb (length c) nb then Ok c else Raise AssertionError
              | _ => Ok (if Nat.ltb 1 nb then map (fun i => append "S" (str_nat i)) (seq 0 nb) else ["S"%string])
              end
          end ;;
  if Nat.eqb num_paths 1 then Ok base
  else Ok (concat (map (fun i => map (fun c => append c (append "_" (str_nat i))) base) (seq 0 num_paths))).

(** A date index built by pd.date_range(start, freq, periods, name), after dropping its first [dr_skip] stamps. *)
Record daterange := mkDR { dr_start : Z; dr_freq : string; dr_periods : nat; dr_name : option string; dr_skip : nat }.

(** _base.py 262-272 _make_date_time_index; pd.date_range itself is kept symbolic. *)
Definition make_date_time_index (st : fitinfo) (num_rows : nat) (label_start : option Z) (label_freq : option string)
  : res daterange :=
  match oelse label_start (ix_min (f_idx st)), oelse label_freq (ix_freq (f_idx st)) with
  | Some s, Some f => Ok (mkDR s f num_rows (ix_name (f_idx st)) 0)
  | _, _ => Raise AssertionError
  end.

Inductive output :=
| ONp (a : arr2)
| OSeries (name : string) (index : daterange) (l : list num)
| OFrame (names : list string) (index : daterange) (a : arr2).

Definition flatten (a : arr2) : list num := concat (map (row a) (seq 0 (nrow a))).

(** _base.py 274-317 _format_ans. *)
Definition format_ans (st : fitinfo) (ans : arr2) (label_start : option Z) (label_freq : option string)
  (columns : option (list string)) (include_x0 : bool) (num_paths : nat) : res output :=
  let need_index := ix_has (f_idx st) || is_some label_start || is_some label_freq in
  let need_columns := need_index || match f_cont st with CSeries | CFrame => true | _ => false end || is_some columns in
  index <- (if need_index then d <- make_date_time_index st (nrow ans) label_start label_freq ;; Ok (Some d) else Ok None) ;;
  if need_columns then
    names <- make_columns_names st (ncol ans) num_paths columns ;;
    match index with
    | None => Raise UnboundLocalError
    | Some ix =>
        match names, f_cont st with
        | [n], (CSeries | CNone) =>
            if include_x0 then Ok (OSeries n ix (flatten ans)) else Raise IndexingError
        | _, _ =>
            if include_x0 then Ok (OFrame names ix ans)
            else Ok (OFrame names (mkDR (dr_start ix) (dr_freq ix) (dr_periods ix) (dr_name ix) 1) (drop_first ans))
        end
    end
  else if include_x0 then Ok (ONp ans) else Ok (ONp (drop_first ans)).

(** _base.py 319-322 set_x0: first row of an array with C columns. *)
Definition set_x0 (x0 : list num) (C : nat) : res (nat -> num) :=
  match x0 with
  | [] => Raise ZeroDivisionError
  | _ => if Nat.eqb (length x0 * (C / length x0)) C then Ok (fun c => nth (c mod length x0) x0 NaN)
         else Raise ValueError
  end.

(** _base.py 335-391 path_sample; [sampler] is the _path_sample_np of the model for the given seed. *)
Definition path_sample (st : fitinfo) (default : num) (sampler : list num -> num -> nat -> nat -> res arr2)
  (x0 : x0arg) (dt : option num) (num_steps num_paths : nat) (label_start : option Z) (label_freq : option string)
  (columns : option (list string)) (include_x0 : bool) : res output :=
  p <- preprocess_path st default x0 dt label_start label_freq ;;
  match p with
  | (x0v, dtv, ls, lf) =>
      ans <- sampler x0v dtv num_steps num_paths ;;
      format_ans st ans ls lf columns include_x0 num_paths
  end.

(* ------------------------------------------------------------------ *)
(** ** Noise *)

(** Noise [z] : the stream of standard normal numbers of the generator seeded with random_state; rng.normal(size=(r, V))
    takes them in row-major order. *)
Definition noise := nat -> num.

(** Row r of the standard normal array multiplied by L^T (_base.py 69-71). *)
Definition correlate (V : nat) (L : option arr2) (z : noise) (r v : nat) : num :=
  match L with
  | None => z (r * V + v)%nat
  | Some M => nsum (map (fun k => nmul (z (r * V + k)%nat) (at2 M v k)) (seq 0 V))
  end.

(** _base.py 57-75 _fill_with_correlated_noise on an array of V columns; entries as a function of row and column. *)
Definition fill_noise (V : nat) (loc scale : list num) (L : option arr2) (z : noise) : res (nat -> nat -> num) :=
  if match L with Some M => negb (Nat.eqb (nrow M) V && Nat.eqb (ncol M) V) | None => false end then Raise ValueError
  else if negb (bfits scale V) then Raise ValueError
  else if negb (bfits loc V) then Raise ValueError
  else Ok (fun r v => nadd (nmul (correlate V L z r v) (bget scale v)) (bget loc v)).

(** np.cumsum(axis=0): running sum of a column. *)
Fixpoint cumsum (f : nat -> nat -> num) (t c : nat) : num :=
  match t with
  | O => f O c
  | S t' => nadd (cumsum f t' c) (f t c)
  end.

(** Entry (t, c) of the simulation array before compounding: x0 in row 0, then the noise array of V columns read back in
    row-major order through the reshaped view ans[1:, :].reshape(-1, V) (_bm.py 204-213). *)
Definition filled (V C : nat) (row0 : nat -> num) (dx : nat -> nat -> num) (t c : nat) : num :=
  match t with
  | O => row0 c
  | S t' => dx ((t' * C + c) / V)%nat ((t' * C + c) mod V)%nat
  end.

(* ------------------------------------------------------------------ *)
(** ** Brownian motion (_bm.py) and geometric Brownian motion (_gbm.py) *)

(** drift and vol are one-row arrays; L is the Cholesky factor of cor. *)
Record bmpar := mkBM { bm_drift : list num; bm_vol : list num; bm_cor : option arr2; bm_L : option arr2 }.

(** _bm.py 130-155, _gbm.py 135-163: __init__; [chol] is numpy.linalg.cholesky. *)
Definition bm_init (chol : arr2 -> res arr2) (drift vol : sdata) (cor : option arr2) : res bmpar :=
  d <- to_row drift ;;
  v <- to_row vol ;;
  match cor with
  | None => Ok (mkBM d v None None)
  | Some c => l <- chol c ;; Ok (mkBM d v (Some c) (Some l))
  end.

Definition scale_dt (vol : list num) (dt : num) : list num := map (fun s => nmul s (nsqrt dt)) vol.

(** _bm.py 191-218 BrownianMotion._path_sample_np. *)
Definition bm_path_np (m : bmpar) (z : noise) (x0 : list num) (dt : num) (steps paths : nat) : res arr2 :=
  let V := length (bm_drift m) in
  let C := (V * paths)%nat in
  row0 <- set_x0 x0 C ;;
  if Nat.eqb V 0 then Raise ValueError else
  dx <- fill_noise V (map (fun d => nmul d dt) (bm_drift m)) (scale_dt (bm_vol m) dt) (bm_L m) z ;;
  Ok (mkArr (S steps) C (cumsum (filled V C row0 dx))).

(** (drift - 0.5 * vol**2) with broadcasting of one-row arrays. *)
Definition gbm_mean (m : bmpar) : res (list num) :=
  let d := bm_drift m in let v := bm_vol m in
  if Nat.eqb (length d) (length v) || Nat.eqb (length d) 1 || Nat.eqb (length v) 1 then
    Ok (map (fun j => nsub (bget d j) (nmul (Fin (1/2)) (nsqr (bget v j))))
            (seq 0 (if Nat.eqb (length d) 1 then length v else length d)))
  else Raise ValueError.

(** _gbm.py 199-230 GeometricBrownianMotion._path_sample_np. *)
Definition gbm_path_np (m : bmpar) (z : noise) (x0 : list num) (dt : num) (steps paths : nat) : res arr2 :=
  let V := length (bm_drift m) in
  let C := (V * paths)%nat in
  row0 <- set_x0 (map nlog x0) C ;;
  if Nat.eqb V 0 then Raise ValueError else
  mu <- gbm_mean m ;;
  dx <- fill_noise V (map (fun d => nmul d dt) mu) (scale_dt (bm_vol m) dt) (bm_L m) z ;;
  Ok (mkArr (S steps) C (fun t c => nexp (cumsum (filled V C row0 dx) t c))).

(** np.diff(x, axis=0). *)
Definition diff0 (x : arr2) : arr2 :=
  mkArr (nrow x - 1) (ncol x) (fun i j => nsub (at2 x (S i) j) (at2 x i j)).
(** np.log(x[1:] / x[:-1]). *)
Definition logret (x : arr2) : arr2 :=
  mkArr (nrow x - 1) (ncol x) (fun i j => nlog (ndiv (at2 x (S i) j) (at2 x i j))).

(** Sample covariance of two columns, np.cov (ddof = 1). *)
Definition ncov (a b : list num) : num :=
  let ma := nmean a in let mb := nmean b in
  ndiv (nsum (map (fun p => nmul (nsub (fst p) ma) (nsub (snd p) mb)) (combine a b))) (nofnat (length a - 1)).
(** np.corrcoef(dx, rowvar=False); the final clip to [-1, 1] is the identity on exact numbers. *)
Definition corrcoef (dx : arr2) : arr2 :=
  let std j := nsqrt (ncov (col dx j) (col dx j)) in
  mkArr (ncol dx) (ncol dx) (fun i j => ndiv (ndiv (ncov (col dx i) (col dx j)) (std i)) (std j)).

(** Common part of _bm.py 167-189 and _gbm.py 175-197: parameters from the changes dx.  The attributes are assigned one
    after the other, so an exception leaves a mixture of the old parameters [m] and new ones. *)
Definition fit_changes (chol : arr2 -> res arr2) (m : bmpar) (dx : arr2) (dt : num) : bmpar * res unit :=
  let cols := map (col dx) (seq 0 (ncol dx)) in
  let drift := map (fun c => ndiv (nmean c) dt) cols in
  let vol := map (fun c => ndiv (nstd 1 c) (nsqrt dt)) cols in
  if Nat.ltb 1 (ncol dx) then
    if existsb (fun v => neqb v (Fin 0)) vol then (mkBM drift vol (bm_cor m) (bm_L m), Raise ValueError)
    else let c := corrcoef dx in
         match chol c with
         | Ok l => (mkBM drift vol (Some c) (Some l), Ok tt)
         | Raise e => (mkBM drift vol (Some c) (bm_L m), Raise e)
         end
  else (mkBM drift vol None None, Ok tt).

(** _bm.py 167-189 BrownianMotion._fit_np. *)
Definition bm_fit_np (chol : arr2 -> res arr2) (m : bmpar) (x : arr2) (dt : num) : bmpar * res unit :=
  fit_changes chol m (diff0 x) dt.
(** _gbm.py 175-197 GeometricBrownianMotion._fit_np. *)
Definition gbm_fit_np (chol : arr2 -> res arr2) (m : bmpar) (x : arr2) (dt : num) : bmpar * res unit :=
  fit_changes chol m (logret x) dt.

(** scipy.stats.norm(loc, scale).logpdf(x); NaN unless scale > 0. *)
Definition norm_logpdf (loc scale x : num) : num :=
  if ngtb scale (Fin 0) then
    let y := ndiv (nsub x loc) scale in
    nsub (nsub (nneg (ndiv (nsqr y) (Fin 2))) (nlog (nsqrt (nmul (Fin 2) (Fin PI))))) (nlog scale)
  else NaN.

(** -1 * np.sum(norm(loc=mean, scale=std).logpdf(dx)) with broadcasting against the columns of dx. *)
Definition nll_indep (mean std : list num) (dx : arr2) : res num :=
  let n := ncol dx in
  let bf l := bfits l n || Nat.eqb n 1 in
  if negb (bf mean && bf std && (Nat.eqb (length mean) (length std) || Nat.eqb (length mean) 1 || Nat.eqb (length std) 1))
  then Raise ValueError
  else
    let w := Nat.max n (Nat.max (length mean) (length std)) in
    Ok (nneg (nsum (map (fun t => nsum (map (fun j =>
          norm_logpdf (bget mean j) (bget std j) (at2 dx t (if Nat.eqb n 1 then O else j))) (seq 0 w)))
        (seq 0 (nrow dx))))).

(** [mvn mean cov dx]: -1 * np.sum(multivariate_normal(mean, cov).logpdf(dx)); kept abstract. *)
Definition mvn_nll := list num -> arr2 -> arr2 -> res num.

(** D @ cor @ D with D = diag(std). *)
Definition dcd (std : list num) (cor : arr2) : arr2 :=
  mkArr (nrow cor) (ncol cor) (fun i j => nmul (nmul (nth i std NaN) (at2 cor i j)) (nth j std NaN)).

Definition nll_with (mvn : mvn_nll) (cor : option arr2) (mean std : list num) (dx : arr2) : res num :=
  match cor with
  | Some c => if Nat.eqb (length std) (nrow c) then mvn mean (dcd std c) dx else Raise ValueError
  | None => nll_indep mean std dx
  end.

(** _bm.py 220-231 BrownianMotion._nll. *)
Definition bm_nll_np (mvn : mvn_nll) (m : bmpar) (x : arr2) (dt : num) : res num :=
  nll_with mvn (bm_cor m) (map (fun d => nmul d dt) (bm_drift m)) (scale_dt (bm_vol m) dt) (diff0 x).

(** _gbm.py 232-243 GeometricBrownianMotion._nll. *)
Definition gbm_nll_np (mvn : mvn_nll) (m : bmpar) (x : arr2) (dt : num) : res num :=
  mu <- gbm_mean m ;;
  nll_with mvn (bm_cor m) mu (scale_dt (bm_vol m) dt) (logret x).

(* ------------------------------------------------------------------ *)
(** ** Ornstein-Uhlenbeck (_ou.py) *)

(** A parameter is a one-row array, or a bare scalar after fit (_ou.py 249-250). *)
Inductive param := Scal (v : num) | Row (l : list num).
Record oupar := mkOU { ou_mean : param; ou_mrr : param; ou_vol : param; ou_cor : option arr2; ou_L : option arr2 }.

(** _ou.py 157-185 __init__. *)
Definition ou_init (chol : arr2 -> res arr2) (mean mrr vol : sdata) (cor : option arr2) : res oupar :=
  me <- to_row mean ;;
  mr <- to_row mrr ;;
  v <- to_row vol ;;
  match cor with
  | None => Ok (mkOU (Row me) (Row mr) (Row v) None None)
  | Some c => l <- chol c ;; Ok (mkOU (Row me) (Row mr) (Row v) (Some c) (Some l))
  end.

Definition pmap (f : num -> num) (p : param) : param := match p with Scal v => Scal (f v) | Row l => Row (map f l) end.
(** elementwise binary operation with broadcasting *)
Definition pmap2 (f : num -> num -> num) (p q : param) : res param :=
  match p, q with
  | Scal a, Scal b => Ok (Scal (f a b))
  | Scal a, Row l => Ok (Row (map (f a) l))
  | Row l, Scal b => Ok (Row (map (fun a => f a b) l))
  | Row l, Row l' =>
      if Nat.eqb (length l) (length l') || Nat.eqb (length l) 1 || Nat.eqb (length l') 1 then
        Ok (Row (map (fun j => f (bget l j) (bget l' j))
                     (seq 0 (if Nat.eqb (length l) 1 then length l' else length l))))
      else Raise ValueError
  end.
Definition pflat (p : param) : list num := match p with Scal v => [v] | Row l => l end.

(** _ou.py 265-267 (= 291-293): exp(-mrr*dt), mean*(1-f), sqrt(vol^2/(2 mrr)*(1-exp(-2 mrr dt))). *)
Definition ou_factor (m : oupar) (dt : num) : param := pmap (fun k => nexp (nmul (nneg k) dt)) (ou_mrr m).
Definition ou_mean_term (m : oupar) (dt : num) : res param :=
  pmap2 nmul (ou_mean m) (pmap (fun f => nsub (Fin 1) f) (ou_factor m dt)).
Definition ou_scale (m : oupar) (dt : num) : res param :=
  q <- pmap2 ndiv (pmap nsqr (ou_vol m)) (pmap (nmul (Fin 2)) (ou_mrr m)) ;;
  r <- pmap2 nmul q (pmap (fun k => nsub (Fin 1) (nexp (nmul (nmul (Fin (-2)) k) dt))) (ou_mrr m)) ;;
  Ok (pmap nsqrt r).

(** _ou.py 284-285: the forward loop. *)
Fixpoint ou_run (fac : list num) (f : nat -> nat -> num) (t c : nat) : num :=
  match t with
  | O => f O c
  | S t' => nadd (f t c) (nmul (ou_run fac f t' c) (bget fac c))
  end.

(** _ou.py 255-287 OrnsteinUhlenbeck._path_sample_np. *)
Definition ou_path_np (m : oupar) (z : noise) (x0 : list num) (dt : num) (steps paths : nat) : res arr2 :=
  mt <- ou_mean_term m dt ;;
  sc <- ou_scale m dt ;;
  match ou_mean m with
  | Scal _ => Raise IndexError
  | Row me =>
      let V := length me in
      let C := (V * paths)%nat in
      row0 <- set_x0 x0 C ;;
      if Nat.eqb V 0 then Raise ValueError else
      dx <- fill_noise V (pflat mt) (pflat sc) (ou_L m) z ;;
      let fac := pflat (ou_factor m dt) in
      if Nat.eqb steps 0 || bfits fac C then Ok (mkArr (S steps) C (ou_run fac (filled V C row0 dx)))
      else Raise ValueError
  end.

(** np.linalg.lstsq of y on [x, 1]: least squares, of minimal norm when all x are equal.  LinAlgError stands for the
    failure on non-finite input.  The rcond cut-off for nearly equal x is left out here; Cut_Model.v adds it (C118). *)
Definition real_of (x : num) : R := match x with Fin r => r | _ => 0 end.
Definition lstsq_line (xs ys : list num) : res (num * num) :=
  if forallb is_fin xs && forallb is_fin ys then
    let x := map real_of xs in let y := map real_of ys in
    let mx := rmean x in let my := rmean y in
    let sxx := rsum (map (fun a => (a - mx) * (a - mx)) x) in
    let sxy := rsum (map (fun p => (fst p - mx) * (snd p - my)) (combine x y)) in
    if reqb sxx 0 then Ok (Fin (my * mx / (mx * mx + 1)), Fin (my / (mx * mx + 1)))
    else Ok (Fin (sxy / sxx), Fin (my - sxy / sxx * mx))
  else Raise LinAlgError.

Definition slope_tol : R := 1 / 100000000.

(** _ou.py 209-236: one turn of the loop; slope, intercept and residuals of column i. *)
Definition ou_fit_col (x : arr2) (i : nat) : res (num * num * list num) :=
  let lx := removelast (col x i) in
  let ly := tl (col x i) in
  p <- lstsq_line lx ly ;;
  let q := if nleb (fst p) (Fin slope_tol) then (Fin slope_tol, nmean ly) else p in
  Ok (fst q, snd q, map (fun w => nsub (snd w) (nadd (nmul (fst q) (fst w)) (snd q))) (combine lx ly)).

(** _ou.py 197-253 OrnsteinUhlenbeck._fit_np.  After the loop, [slope] and [intercept] are those of the last column.
    (For data with one row np.linalg.lstsq gets empty arrays and returns zeros, as lstsq_line does.) *)
Definition ou_fit_np (chol : arr2 -> res arr2) (m : oupar) (x : arr2) (dt : num) : oupar * res unit :=
  match mapM (ou_fit_col x) (seq 0 (ncol x)) with
  | Raise e => (m, Raise e)
  | Ok cs =>
      let residuals := mkArr (nrow x - 1) (ncol x) (fun t j => nth t (snd (nth j cs (NaN, NaN, []))) NaN) in
      let finish cor L :=
        match rev cs with
        | [] => (mkOU (ou_mean m) (ou_mrr m) (ou_vol m) cor L, Raise UnboundLocalError)
        | (slope, intercept, _) :: _ =>
            let mrr := ndiv (nneg (nlog slope)) dt in
            let mean := ndiv intercept (nsub (Fin 1) slope) in
            let vol := map (fun c => nsqrt (ndiv (nmul (nmul (Fin 2) mrr) (nsqr (nstd 1 (snd c))))
                                                 (nsub (Fin 1) (nsqr slope)))) cs in
            (mkOU (Scal mean) (Scal mrr) (Row vol) cor L, Ok tt)
        end in
      if Nat.ltb 1 (ncol x) then
        let c := corrcoef residuals in
        match chol c with
        | Ok l => finish (Some c) (Some l)
        | Raise e => (mkOU (ou_mean m) (ou_mrr m) (ou_vol m) (Some c) (ou_L m), Raise e)
        end
      else finish None None
  end.

(** _ou.py 289-306 OrnsteinUhlenbeck._nll. *)
Definition ou_nll_np (mvn : mvn_nll) (m : oupar) (x : arr2) (dt : num) : res num :=
  mt <- ou_mean_term m dt ;;
  sc <- ou_scale m dt ;;
  let fac := pflat (ou_factor m dt) in
  if bfits fac (ncol x) then
    nll_with mvn (ou_cor m) (pflat mt) (pflat sc)
      (mkArr (nrow x - 1) (ncol x) (fun i j => nsub (at2 x (S i) j) (nmul (bget fac j) (at2 x i j))))
  else if Nat.eqb (ncol x) 1 then
    nll_with mvn (ou_cor m) (pflat mt) (pflat sc)
      (mkArr (nrow x - 1) (length fac) (fun i j => nsub (at2 x (S i) 0%nat) (nmul (bget fac j) (at2 x i 0%nat))))
  else Raise ValueError.

(* ------------------------------------------------------------------ *)
(** ** fit and scores on model objects *)

(** A model object: its parameters, its num_parameters_ attribute and its fit information. *)
Record obj (P : Type) := mkObj { o_par : P; o_k : num; o_fit : fitinfo }.
Arguments mkObj {P}. Arguments o_par {P}. Arguments o_k {P}. Arguments o_fit {P}.

(** len() of a (1, m) array. *)
Definition len_2d (_ : list num) : nat := 1.
(** _bm.py 157-159, _gbm.py 165-167. *)
Definition bm_num_parameters (m : bmpar) : num :=
  let n := len_2d (bm_drift m) in
  nadd (nofnat (n + len_2d (bm_vol m)))
       (match bm_cor m with Some _ => ndiv (nofnat (n * (n - 1))) (Fin 2) | None => Fin 0 end).
(** _ou.py 187-189 (at construction every parameter is a one-row array). *)
Definition ou_num_parameters (m : oupar) : num :=
  let n := len_2d (pflat (ou_mean m)) in
  nadd (nofnat (n + len_2d (pflat (ou_mrr m)) + len_2d (pflat (ou_vol m))))
       (match ou_cor m with Some _ => ndiv (nofnat (n * (n - 1))) (Fin 2) | None => Fin 0 end).

(** BrownianMotion(...), GeometricBrownianMotion(...), OrnsteinUhlenbeck(...). *)
Definition bm_new (chol : arr2 -> res arr2) (drift vol : sdata) (cor : option arr2) : res (obj bmpar) :=
  m <- bm_init chol drift vol cor ;; Ok (mkObj m (bm_num_parameters m) unfitted).
Definition ou_new (chol : arr2 -> res arr2) (mean mrr vol : sdata) (cor : option arr2) : res (obj oupar) :=
  m <- ou_init chol mean mrr vol cor ;; Ok (mkObj m (ou_num_parameters m) unfitted).

(** path_sample of the three classes; [z] is the noise stream of the seed.  The default x0 is 0 (_base.py 152), 100 for
    GBM (_gbm.py 151). *)
Definition bm_path_sample (o : obj bmpar) (z : noise) := path_sample (o_fit o) (Fin 0) (bm_path_np (o_par o) z).
Definition gbm_path_sample (o : obj bmpar) (z : noise) := path_sample (o_fit o) (Fin 100) (gbm_path_np (o_par o) z).
Definition ou_path_sample (o : obj oupar) (z : noise) := path_sample (o_fit o) (Fin 0) (ou_path_np (o_par o) z).

(** _base.py 397-417 fit, for a model whose _fit_np is [fit_np]. *)
Definition fit {P} (infer : list Z -> res (option string)) (fit_np : P -> arr2 -> num -> P * res unit)
  (o : obj P) (x : sdata) (dt : option num) : obj P * res unit :=
  match preprocess_fit infer (o_fit o) x dt with
  | (st, Raise e) => (mkObj (o_par o) (o_k o) st, Raise e)
  | (st, Ok (v, d)) => let '(p, r) := fit_np (o_par o) v d in (mkObj p (o_k o) st, r)
  end.

(** _base.py 422-439 nll; [nll_np] is the _nll of the model with its current parameters. *)
Definition nll {P} (infer : list Z -> res (option string)) (nll_np : P -> arr2 -> num -> res num)
  (o : obj P) (x : sdata) (dt : option num) : obj P * res num :=
  match preprocess_fit infer (o_fit o) x dt with
  | (st, Raise e) => (mkObj (o_par o) (o_k o) st, Raise e)
  | (st, Ok (v, d)) => (mkObj (o_par o) (o_k o) st, nll_np (o_par o) v d)
  end.

(** x.shape[0]: AttributeError for lists and scalars. *)
Definition shape0 (x : sdata) : res nat :=
  match x with
  | DNp1 l | DSeries _ _ l => Ok (length l)
  | DNp2 a | DFrame _ _ a => Ok (nrow a)
  | _ => Raise AttributeError
  end.

(** Common shape of aic and bic. *)
Definition score {P} (formula : num -> num -> num -> num)
  (infer : list Z -> res (option string)) (nll_np : P -> arr2 -> num -> res num)
  (o : obj P) (x : sdata) (dt : option num) : obj P * res num :=
  match preprocess_fit infer (o_fit o) x dt with
  | (st, Raise e) => (mkObj (o_par o) (o_k o) st, Raise e)
  | (st, Ok (v, d)) =>
      (mkObj (o_par o) (o_k o) st,
       n <- shape0 x ;; l <- nll_np (o_par o) v d ;; Ok (formula (o_k o) (nofnat n) l))
  end.
(** _base.py 441-459 aic. *)
Definition aic {P} := @score P (fun k n l => nadd (nmul (Fin 2) k) (nmul (nmul (Fin 2) l) n)).
(** _base.py 461-478 bic. *)
Definition bic {P} := @score P (fun k n l => nadd (nmul (nmul (Fin 2) (nlog n)) k) (nmul (nmul (Fin 2) l) n)).

(* ------------------------------------------------------------------ *)
(** ** Correlation matrix from its upper triangle (_base.py 78-116) *)

(** _base.py 78-86 _triangular_index, in exact arithmetic: (-1 + sqrt(1 + 8 T)) / 2 is an integer iff 1 + 8 T is a
    perfect square. *)
Definition triangular_index (T : nat) : res nat :=
  let s := Nat.sqrt (1 + 8 * T) in
  if Nat.eqb (s * s) (1 + 8 * T) then Ok ((s - 1) / 2)%nat else Raise ValueError.

(** The loop 108-114 with its running index: entries (i, j, value) of the strict upper triangle in order. *)
Definition upper_pairs (d : nat) : list (nat * nat) :=
  concat (map (fun i => map (fun j => (i, j)) (seq (S i) (d - S i))) (seq 0 d)).
(** matrix[i, j] = matrix[j, i] = values[index] for the index-th pair; unit diagonal; zero elsewhere (before filling). *)
Definition cor_entry (d : nat) (values : list num) (i j : nat) : num :=
  if Nat.eqb i j then Fin 1
  else match find (fun q => let '((a, b), _) := q in (Nat.eqb a i && Nat.eqb b j) || (Nat.eqb a j && Nat.eqb b i))
                  (combine (upper_pairs d) values) with
       | Some (_, v) => v
       | None => Fin 0
       end.
(** _base.py 89-116 _make_cor_from_upper_tri (the debug print is dropped). *)
Definition make_cor_from_upper_tri (x : sdata) : res arr2 :=
  vals <- match x with
          | DNp1 _ | DSeries _ _ _ => Raise AssertionError
          | DNp2 a | DFrame _ _ a =>
              if Nat.eqb (nrow a) 1 || Nat.eqb (ncol a) 1 then Ok (flatten a) else Raise ValueError
          | DList l => Ok l
          | DScalar v => Ok [v]
          | DOther => Raise ValueError
          end ;;
  t <- triangular_index (length vals) ;;
  Ok (mkArr (t + 1) (t + 1) (cor_entry (t + 1) vals)).

(* ------------------------------------------------------------------ *)
(** ** QuasiRandom (_quasi_random.py) *)

(** np.nan_to_num: NaN to 0, infinities to the largest double. *)
Definition dbl_max : R := (2 - / 2 ^ 52) * 2 ^ 1023.
Definition nan_to_num (x : num) : num :=
  match x with Fin a => Fin a | NaN => Fin 0 | PInf => Fin dbl_max | NInf => Fin (- dbl_max) end.

(** _quasi_random.py 86-89: column c of the indicator array; assigning a sequence of the wrong length raises. *)
Definition quasi_col (tech : list num -> list num) (base : arr2) (c : nat) : res (list num) :=
  let s := map nan_to_num (tech (removelast (col base c))) in
  if Nat.eqb (length s) (nrow base - 1) then Ok (Fin 0 :: s)
  else match s with
       | [v] => Ok (Fin 0 :: repeat v (nrow base - 1))
       | _ => Raise ValueError
       end.

(** _quasi_random.py 73-94 QuasiRandom._path_sample_np; f_signal_vol is a scalar.  [base] is the _path_sample_np of the
    base model and [vol] its vol row. *)
Definition quasi_path_np (tech : list num -> list num) (f : num) (vol : list num)
  (base : list num -> num -> nat -> nat -> res arr2) (x0 : list num) (dt : num) (steps paths : nat) : res arr2 :=
  b <- base x0 dt steps paths ;;
  ind <- mapM (quasi_col tech b) (seq 0 (ncol b)) ;;
  let sv := concat (repeat (map (nmul f) vol) paths) in
  if bfits sv (ncol b) then
    let sc c := let std := nstd 2 (removelast (tl (nth c ind []))) in
                fun t => ndiv (nmul (nmul (nth t (nth c ind []) NaN) (bget sv c)) (nsqrt dt)) std in
    Ok (mkArr (nrow b) (ncol b) (fun t c => nadd (at2 b t c) (cumsum (fun t c => sc c t) t c)))
  else Raise ValueError.

(** A QuasiRandom object over a BM base model; default base BrownianMotion() (39-63).  fit (70-71) raises after the
    bookkeeping of _base.py 414. *)
Record quasi := mkQ { q_tech : list num -> list num; q_f : num; q_base : bmpar }.
Definition quasi_fit_np (q : quasi) (x : arr2) (dt : num) : quasi * res unit := (q, Raise NotImplementedError).
Definition quasi_path_sample (o : obj quasi) (z : noise) :=
  let q := o_par o in
  path_sample (o_fit o) (Fin 0) (quasi_path_np (q_tech q) (q_f q) (bm_vol (q_base q)) (bm_path_np (q_base q) z)).
