(** Model of quantfinlib/feature: indicators, micro-structure features and the CUSUM test. *)
From Coq Require Import Reals ZArith List Arith Bool.
From Verif Require Import Base Num Feat_Ops.
Import ListNotations.
Open Scope R_scope.

(** ** the decorator *)
(** an argument annotated as pd.Series *)
Inductive parg := PArray (l : list num) | PSeries (l : list num) | POther.
(** feature/indicators/_base.py 10-34 numpy_io_support.  [args] are the arguments annotated pd.Series, in the order of the signature; the
    other arguments are fixed in [func].  np_args is the list of the converted ones. *)
Fixpoint convert (args : list parg) : res (list (list num) * nat) :=
  match args with
  | [] => Ok ([], 0%nat)
  | PArray l :: rest => r <- convert rest ;; Ok (l :: fst r, S (snd r))
  | PSeries l :: rest => r <- convert rest ;; Ok (l :: fst r, snd r)
  | POther :: _ => Raise TypeError
  end.
Definition numpy_io_support (func : list (list num) -> res (list num)) (args : list parg) : res parg :=
  r <- convert args ;;
  let '(values, np_args) := r in
  if Nat.eqb np_args 0 then out <- func values ;; Ok (PSeries out)
  else if Nat.eqb np_args (length args) then out <- func values ;; Ok (PArray out)
  else Raise TypeError.

(** ** feature/indicators/_base.py *)
(** feature/indicators/_base.py 37-54 *)
Definition rolling_mean (ts : list num) (window : Z) := rolling window agg_mean ts.
(** feature/indicators/_base.py 57-74 *)
Definition rolling_std (ts : list num) (window : Z) := rolling window agg_std ts.
(** feature/indicators/_base.py 77-94 *)
Definition rolling_max (ts : list num) (window : Z) := rolling window agg_max ts.
(** feature/indicators/_base.py 97-114 *)
Definition rolling_min (ts : list num) (window : Z) := rolling window agg_min ts.
(** feature/indicators/_base.py 117-134 *)
Definition ewm_mean (ts : list num) (span : R) := ewm_span span 0 ts.
(** feature/indicators/_base.py 137-154 *)
Definition ewm_std (ts : list num) (span : R) := ewm_std_span span ts.
(** feature/indicators/_base.py 178-181: DataFrame.max(axis=1) skips missing values *)
Definition row_max (x y z : num) : num :=
  let mx a b := match a, b with NaN, c => c | c, NaN => c | _, _ => if nltb a b then b else a end in
  mx (mx x y) z.
Definition true_range (high low close : list num) : list num :=
  let tr1 := lift2 nsub high low in
  let tr2 := map nabs (lift2 nsub high (shift 1 close)) in
  let tr3 := map nabs (lift2 nsub low (shift 1 close)) in
  map (fun i => row_max (nth i tr1 NaN) (nth i tr2 NaN) (nth i tr3 NaN)) (seq 0 (Nat.max (length tr1) (Nat.max (length tr2) (length tr3)))).
(** feature/indicators/_base.py 157-182 average_true_range, for an integer window *)
Definition average_true_range (high low close : list num) (window : Z) : res (list num) :=
  if (window =? 0)%Z then Raise ZeroDivisionError
  else ewm_alpha (1 / IZR window) 0 (true_range high low close).
(** feature/indicators/_base.py 185-202 *)
Definition rolling_mom (ts : list num) (window : Z) : list num := map (fun d => ndiv d (Fin (IZR window))) (diff window ts).
(** feature/indicators/_base.py 205-222; min_periods as a natural number (negative ones count as 0) *)
Definition ewm_mom (ts : list num) (span : R) (min_periods : nat) : res (list num) := ewm_span span min_periods (diff 1 ts).

(** ** feature/indicators/_bands.py; the three series have the same length *)
(** feature/indicators/_bands.py 40-61 *)
Record bands := mkBands { b_ts : list num; b_mean : list num; b_std : list num; b_mult : num }.
(** feature/indicators/_bands.py 66-75 *)
Definition upper (b : bands) : list num := lift2 nadd (b_mean b) (map (fun s => nmul s (b_mult b)) (b_std b)).
(** feature/indicators/_bands.py 77-86 *)
Definition lower (b : bands) : list num := lift2 nsub (b_mean b) (map (fun s => nmul s (b_mult b)) (b_std b)).
(** feature/indicators/_bands.py 88-97 *)
Definition middle (b : bands) : list num := b_mean b.
(** feature/indicators/_bands.py 99-108 *)
Definition bandwidth (b : bands) : list num := lift2 ndiv (map (fun s => nmul (nmul (Fin 2) s) (b_mult b)) (b_std b)) (middle b).
(** feature/indicators/_bands.py 110-119 *)
Definition percent_b (b : bands) : list num :=
  lift2 ndiv (lift2 nsub (b_ts b) (lower b)) (map (fun s => nmul (nmul (Fin 2) s) (b_mult b)) (b_std b)).
(** feature/indicators/_bands.py 125-142 *)
Definition BollingerBands (ts : list num) (window : Z) (multiplier : num) : res bands :=
  m <- rolling_mean ts window ;; s <- rolling_std ts window ;; Ok (mkBands ts m s multiplier).
(** feature/indicators/_bands.py 148-163 *)
Definition EwmBollingerBands (ts : list num) (window : R) (multiplier : num) : res bands :=
  m <- ewm_mean ts window ;; s <- ewm_std ts window ;; Ok (mkBands ts m s multiplier).
(** feature/indicators/_bands.py 169-204 *)
Definition KeltnerBands (high low close : list num) (window_atr : Z) (window : R) (multiplier : num) : res bands :=
  m <- ewm_mean close window ;; s <- average_true_range high low close window_atr ;; Ok (mkBands close m s multiplier).
(** feature/indicators/_bands.py 210-225 *)
Definition DonchianBands (ts : list num) (window : Z) : res bands :=
  ub <- rolling_max ts window ;; lb <- rolling_min ts window ;;
  Ok (mkBands ts (map (fun x => ndiv x (Fin 2)) (lift2 nadd ub lb)) (map (fun x => ndiv x (Fin 2)) (lift2 nsub ub lb)) (Fin 1)).

(** ** feature/indicators/_macd.py *)
(** feature/indicators/_macd.py 8-29 *)
Definition macd (ts : list num) (fast slow : R) : res (list num) :=
  f <- ewm_span fast 0 ts ;; s <- ewm_span slow 0 ts ;; Ok (lift2 nsub f s).
(** feature/indicators/_macd.py 32-55 *)
Definition macd_signal (ts : list num) (fast slow signal : R) : res (list num) :=
  line <- macd ts fast slow ;; sl <- ewm_span signal 0 line ;; Ok (lift2 nsub line sl).

(** ** feature/indicators/_rsi.py *)
(** feature/indicators/_rsi.py 24-26, 47-49 *)
Definition gains (ts : list num) : list num := where0 (fun d => ngtb d (Fin 0)) (fun d => d) (diff 1 ts).
Definition losses (ts : list num) : list num := where0 (fun d => nltb d (Fin 0)) nneg (diff 1 ts).
Definition strength (up down : num) : num := nmul (Fin 100) (ndiv up (nadd up down)).
(** feature/indicators/_rsi.py 7-27 *)
Definition rsi (ts : list num) (period : Z) : res (list num) :=
  up <- rolling period agg_mean (gains ts) ;; down <- rolling period agg_mean (losses ts) ;; Ok (lift2 strength up down).
(** feature/indicators/_rsi.py 30-50 *)
Definition ewm_rsi (ts : list num) (period : R) : res (list num) :=
  up <- ewm_span period 0 (gains ts) ;; down <- ewm_span period 0 (losses ts) ;; Ok (lift2 strength up down).

(** ** feature/micro_structure/_price_sequences.py *)
(** np.log(x / y) *)
Definition logratio (x y : num) : num := nlog (ndiv x y).
(** feature/micro_structure/_price_sequences.py 9-31 *)
Definition close_close_volatility (p_close : list num) (window : Z) : res (list num) :=
  rolling window agg_var (lift2 ndiv p_close (shift 1 p_close)).
(** feature/micro_structure/_price_sequences.py 34-58 *)
Definition high_low_volatility (p_high p_low : list num) (window : Z) : res (list num) :=
  r <- rolling window agg_mean (map nsqr (lift2 logratio p_high p_low)) ;;
  Ok (map (fun x => ndiv x (Fin (4 * ln 2))) r).
(** feature/micro_structure/_price_sequences.py 61-94 *)
Definition garman_klass_volatility (p_high p_low p_open p_close : list num) (window : Z) : res (list num) :=
  let returns_sq := map (fun x => nmul (Fin (1 / 2)) (nsqr x)) (lift2 logratio p_high p_low) in
  let returns_close_open := map (fun x => nmul (Fin (2 * ln 2 - 1)) (nsqr x)) (lift2 logratio p_close p_open) in
  a <- rolling window agg_mean returns_sq ;; b <- rolling window agg_mean returns_close_open ;; Ok (lift2 nsub a b).
(** feature/micro_structure/_price_sequences.py 97-129 *)
Definition rs_terms (p_high p_low p_open p_close : list num) : list num :=
  lift2 nadd (lift2 nmul (lift2 logratio p_high p_close) (lift2 logratio p_high p_open))
             (lift2 nmul (lift2 logratio p_low p_close) (lift2 logratio p_low p_open)).
Definition rogers_satchell_volatility (p_high p_low p_open p_close : list num) (window : Z) : res (list num) :=
  rolling window agg_mean (rs_terms p_high p_low p_open p_close).
(** feature/micro_structure/_price_sequences.py 132-171; window = 1 divides the integer 2 by 0 *)
Definition yang_zhang_volatility (p_high p_low p_open p_close : list num) (window : Z) : res (list num) :=
  if (window =? 1)%Z then Raise ZeroDivisionError
  else
    let coeff := (34 / 100) / (134 / 100 + IZR (window + 1) / IZR (window - 1)) in
    a <- rolling window agg_mean (map nsqr (lift2 logratio p_open (shift 1 p_close))) ;;
    b <- rolling window agg_mean (map nsqr (lift2 logratio p_close (shift 1 p_open))) ;;
    c <- rogers_satchell_volatility p_high p_low p_open p_close window ;;
    Ok (lift2 nadd (lift2 nadd a (map (nmul (Fin coeff)) b)) (map (nmul (Fin (1 - coeff))) c)).
(** feature/micro_structure/_price_sequences.py 440-445 _get_gamma *)
Definition get_gamma (p_high p_low : list num) : list num :=
  map nsqr (lift2 logratio (roll 2 agg_max p_high) (roll 2 agg_min p_low)).
(** feature/micro_structure/_price_sequences.py 448-453 _get_beta *)
Definition get_beta (p_high p_low : list num) (window : Z) : res (list num) :=
  rolling window agg_mean (roll 2 agg_sum (map nsqr (lift2 logratio p_high p_low))).
(** lines 461, 471: negative values are set to zero *)
Definition clip0 (x : num) : num := if nltb x (Fin 0) then Fin 0 else x.
Definition den : R := 3 - 2 * sqrt 2.
(** feature/micro_structure/_price_sequences.py 456-462 _get_alpha: note the two minus signs of line 460 *)
Definition get_alpha (beta gamma : list num) : list num :=
  map clip0 (lift2 nsub (map (fun b => ndiv (nmul (Fin (sqrt 2 - 1)) (nsqrt b)) (Fin den)) beta)
                        (map (fun g => nneg (nsqrt (ndiv g (Fin den)))) gamma)).
(** feature/micro_structure/_price_sequences.py 465-472 _get_sigma *)
Definition get_sigma (beta gamma : list num) : list num :=
  let k2 := sqrt (8 / PI) in
  map clip0 (lift2 nadd (map (fun b => ndiv (nmul (Fin (/ sqrt 2 - 1)) (nsqrt b)) (Fin (k2 * den))) beta)
                        (map (fun g => nsqrt (ndiv g (Fin (k2 * k2 * den)))) gamma)).
(** feature/micro_structure/_price_sequences.py 174-204 *)
Definition becker_parkinson_volatility (p_high p_low : list num) (window : Z) : res (list num) :=
  beta <- get_beta p_high p_low window ;; Ok (get_sigma beta (get_gamma p_high p_low)).
(** feature/micro_structure/_price_sequences.py 207-234 *)
Definition corwin_schultz_spread (p_high p_low : list num) (window : Z) : res (list num) :=
  beta <- get_beta p_high p_low window ;;
  Ok (map (fun a => ndiv (nmul (Fin 2) (nsub (nexp a) (Fin 1))) (nadd (nexp a) (Fin 1))) (get_alpha beta (get_gamma p_high p_low))).
(** feature/micro_structure/_price_sequences.py 372-404 get_roll_measure, _roll_measure *)
Definition roll_measure (p_close : list num) (window : Z) : res (list num) :=
  let d := diff 1 (map nlog p_close) in
  c <- rolling_cov window d (shift 1 d) ;; Ok (map (fun x => nmul (Fin 2) (nsqrt (nabs x))) c).
(** feature/micro_structure/_price_sequences.py 407-434 *)
Definition roll_impact (p_close volume : list num) (window : Z) : res (list num) :=
  r <- roll_measure p_close window ;; Ok (lift2 ndiv r (lift2 nmul volume p_close)).

(** feature/micro_structure/_price_sequences.py 290-369 _edge_spread on the rows of one window *)
Definition map2 {A B C} (f : A -> B -> C) (l : list A) (l' : list B) : list C := map (fun p => f (fst p) (snd p)) (combine l l').
Definition nne (x y : num) : bool := negb (neqb x y).
Definition b2n (b : bool) : num := if b then Fin 1 else Fin 0.
Definition bmean (l : list bool) : num := nmean (map b2n l).
Definition edge_s2 (o h l c : list num) : option num :=
  let p_o := map nlog o in let p_h := map nlog h in let p_l := map nlog l in let p_c := map nlog c in
  let p_m := map2 (fun x y => ndiv (nadd x y) (Fin 2)) p_h p_l in
  let h1 := removelast p_h in let l1 := removelast p_l in let c1 := removelast p_c in let m1 := removelast p_m in
  let p_o := tl p_o in let p_h := tl p_h in let p_l := tl p_l in let p_m := tl p_m in
  let tau := map2 orb (map2 nne p_h p_l) (map2 nne p_l c1) in
  let phi1 := map2 andb (map2 nne p_o p_h) tau in
  let phi2 := map2 andb (map2 nne p_o p_l) tau in
  let phi3 := map2 andb (map2 nne c1 h1) tau in
  let phi4 := map2 andb (map2 nne c1 l1) tau in
  let pt := bmean tau in
  let po := nadd (bmean phi1) (bmean phi2) in
  let pc := nadd (bmean phi3) (bmean phi4) in
  if neqb pt (Fin 0) || neqb po (Fin 0) || neqb pc (Fin 0) then None
  else
    let r1 := map2 nsub p_m p_o in let r2 := map2 nsub p_o m1 in let r3 := map2 nsub p_m c1 in
    let r4 := map2 nsub c1 m1 in let r5 := map2 nsub p_o c1 in
    let demean r := map2 (fun x t => nsub x (ndiv (nmul (b2n t) (nmean r)) pt)) r tau in
    let d1 := demean r1 in let d3 := demean r3 in let d5 := demean r5 in
    let term k p d r := map2 (fun x y => nmul (nmul (ndiv (Fin k) p) x) y) d r in
    let x1 := map2 nsub (term (-4) po d1 r2) (term 4 pc d3 r4) in
    let x2 := map2 nsub (term (-4) po d1 r5) (term 4 pc d5 r4) in
    let e1 := nmean x1 in let e2 := nmean x2 in let v1 := nvar 0 x1 in let v2 := nvar 0 x2 in
    Some (ndiv (nadd (nmul v2 e1) (nmul v1 e2)) (nadd v1 v2)).
Definition edge_window (o h l c : list num) (sign : bool) : num :=
  match edge_s2 o h l c with
  | None => NaN
  | Some s2 => let s := nsqrt (nabs s2) in if sign && nltb s2 (Fin 0) then nneg s else s
  end.
(** feature/micro_structure/_price_sequences.py 237-287 get_edge_spread: one estimate per full window, placed at its last row; a window below 1 gives the wrong number of
    estimates for the index *)
Definition edge_spread (p_high p_low p_open p_close : list num) (window : Z) (sign : bool) : res (list num) :=
  if (window <? 1)%Z then Raise ValueError
  else
    let n := Nat.max (Nat.max (length p_open) (length p_high)) (Nat.max (length p_low) (length p_close)) in
    let pad l := map (fun i => nth i l NaN) (seq 0 n) in
    let w := Z.to_nat window in
    let win l i := skipn (S i - w) (firstn (S i) (pad l)) in
    Ok (map (fun i => if Nat.ltb (S i) w then NaN
                      else edge_window (win p_open i) (win p_high i) (win p_low i) (win p_close i) sign) (seq 0 n)).

(** ** feature/micro_structure/_sequential_trade_models.py *)
(** feature/micro_structure/_sequential_trade_models.py 9-34 *)
Definition vpin (volume buy_volume : list num) (window : Z) : res (list num) :=
  let sell_volume := lift2 nsub volume buy_volume in
  let volume_imbalance := lift2 ndiv (map nabs (lift2 nsub buy_volume sell_volume)) volume in
  rolling window agg_mean volume_imbalance.
(** feature/micro_structure/_sequential_trade_models.py 37-79; [cdf] is t.cdf(., df=0.25).  The product of a Series and an array needs equal lengths, except that
    numpy broadcasts an array of length one. *)
Definition estimate_buy_volume (cdf : num -> num) (p_close volume sigma_p : list num) : res (list num) :=
  let normalized := lift2 ndiv (diff 1 p_close) sigma_p in
  if Nat.eqb (length normalized) (length volume) then Ok (lift2 nmul volume (map cdf normalized))
  else if Nat.eqb (length normalized) 1 then Ok (map (fun x => nmul x (cdf (nth 0 normalized NaN))) volume) else Raise ValueError.

(** ** feature/micro_structure/_strategic_trade_models.py *)
(** feature/micro_structure/_strategic_trade_models.py 9-46 *)
Definition kyle_lambda (p_close volume : list num) (window : Z) : res (list num) :=
  let delta_p := diff 1 p_close in
  rolling window agg_mean (lift2 ndiv delta_p (lift2 nmul (map nsign delta_p) volume)).
(** feature/micro_structure/_strategic_trade_models.py 49-83 *)
Definition amihud_lambda (p_close volume : list num) (window : Z) : res (list num) :=
  rolling window agg_mean (lift2 ndiv (map nabs (pct_change p_close)) (lift2 nmul volume p_close)).
(** feature/micro_structure/_strategic_trade_models.py 86-125 *)
Definition hasbrouck_lambda (p_close volume : list num) (window : Z) : res (list num) :=
  let d := lift2 logratio p_close (shift 1 p_close) in
  rolling window agg_mean (lift2 ndiv d (lift2 nmul (map nsign d) (map nsqrt (lift2 nmul volume p_close)))).

(** ** feature/structural_breaks/cusumtest.py 6-75 *)
(** np.max and np.argmax: a NaN wins, the first one for the position *)
Fixpoint argmax_from (best : num) (pos i : nat) (l : list num) : nat :=
  match l with
  | [] => pos
  | x :: l' => if is_nan best then pos else if is_nan x then i else if nltb best x then argmax_from x i (S i) l' else argmax_from best pos (S i) l'
  end.
Definition argmax (l : list num) : nat := match l with [] => 0%nat | x :: l' => argmax_from x 0 1 l' end.
Definition np_amax (l : list num) : num := nth (argmax l) l NaN.
Definition cusum_at (log_y : list num) (t : nat) : num * num :=
  match t with
  | O => (Fin 0, Fin 0)
  | S _ =>
      let sq := map (fun i => nsqr (nsub (nth (S i) log_y NaN) (nth i log_y NaN))) (seq 0 t) in
      let sigma := nsqrt (ndiv (nsum sq) (nofnat t)) in
      let s := map (fun n => ndiv (nsub (nth t log_y NaN) (nth n log_y NaN)) (nmul sigma (nsqrt (nofnat (t - n))))) (seq 0 t) in
      (np_amax s, nsqrt (nadd (Fin (46 / 10)) (nlog (nofnat (t - argmax s)))))
  end.
Definition cusum_test (y : list num) : list num * list num :=
  let r := map (cusum_at (map nlog y)) (seq 0 (length y)) in (map fst r, map snd r).
