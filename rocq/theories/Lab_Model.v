(** quantfinlib/feature on pandas Series that carry their own dates: the functions of Feat_Model.v with pandas' alignment.
    A label is a timestamp (nanoseconds).  The alignment of indexes that differ is modelled for strictly increasing dates. *)
From Coq Require Import Reals ZArith List Arith Bool.
From Verif Require Import Base Num Feat_Ops Feat_Model.
Import ListNotations.
Open Scope R_scope.

(** a Series: its labels with their values, in order *)
Definition ser := list (Z * num).
Definition labels (s : ser) : list Z := map fst s.
Definition values (s : ser) : list num := map snd s.
(** an operation on the values that keeps the index *)
Definition on (f : list num -> list num) (s : ser) : ser := combine (labels s) (f (values s)).
Definition on_res (f : list num -> res (list num)) (s : ser) : res ser := v <- f (values s) ;; Ok (combine (labels s) v).

(** s.reindex([k]): the value at a label, NaN if there is none *)
Definition at_label (s : ser) (k : Z) : num := match find (fun p => (fst p =? k)%Z) s with Some p => snd p | None => NaN end.
(** the sorted union of indexes *)
Fixpoint insert (k : Z) (l : list Z) : list Z :=
  match l with
  | [] => [k]
  | x :: l' => if (k <? x)%Z then k :: l else if (k =? x)%Z then l else x :: insert k l'
  end.
Definition union (l : list (list Z)) : list Z := fold_right insert [] (concat l).
Definition same_labels (l l' : list Z) : bool := if list_eq_dec Z.eq_dec l l' then true else false.
(** the common index and the columns of several Series: unchanged if all indexes are equal, otherwise the union *)
Definition frame (ss : list ser) : list Z * list (list num) :=
  match ss with
  | [] => ([], [])
  | s :: rest =>
      if forallb (fun u => same_labels (labels u) (labels s)) rest then (labels s, map values ss)
      else let U := union (map labels ss) in (U, map (fun u => map (at_label u) U) ss)
  end.
(** binary operation of two Series *)
Definition align (f : num -> num -> num) (s u : ser) : ser :=
  let '(ix, cols) := frame [s; u] in combine ix (lift2 f (nth 0 cols []) (nth 1 cols [])).

(** feature/indicators/_base.py 178-182: pd.concat(axis=1).max(axis=1), then ewm *)
Definition l_true_range (high low close : ser) : ser :=
  let tr1 := align nsub high low in
  let tr2 := on (map nabs) (align nsub high (on (shift 1) close)) in
  let tr3 := on (map nabs) (align nsub low (on (shift 1) close)) in
  let '(ix, cols) := frame [tr1; tr2; tr3] in
  combine ix (map (fun i => row_max (nth i (nth 0 cols []) NaN) (nth i (nth 1 cols []) NaN) (nth i (nth 2 cols []) NaN)) (seq 0 (length ix))).
Definition l_average_true_range (high low close : ser) (window : Z) : res ser :=
  if (window =? 0)%Z then Raise ZeroDivisionError else on_res (ewm_alpha (1 / IZR window) 0) (l_true_range high low close).

(** feature/indicators/_bands.py 40-119, 169-204: the channels built from high, low and close *)
Record lbands := mkLB { lb_ts : ser; lb_mean : ser; lb_std : ser; lb_mult : num }.
Definition l_keltner (high low close : ser) (window_atr : Z) (window : R) (multiplier : num) : res lbands :=
  m <- on_res (fun l => ewm_mean l window) close ;; s <- l_average_true_range high low close window_atr ;; Ok (mkLB close m s multiplier).
Definition l_upper (b : lbands) : ser := align nadd (lb_mean b) (on (map (fun s => nmul s (lb_mult b))) (lb_std b)).
Definition l_lower (b : lbands) : ser := align nsub (lb_mean b) (on (map (fun s => nmul s (lb_mult b))) (lb_std b)).
Definition l_middle (b : lbands) : ser := lb_mean b.
Definition l_width (b : lbands) : ser := on (map (fun s => nmul (nmul (Fin 2) s) (lb_mult b))) (lb_std b).
Definition l_bandwidth (b : lbands) : ser := align ndiv (l_width b) (l_middle b).
Definition l_percent_b (b : lbands) : ser := align ndiv (align nsub (lb_ts b) (l_lower b)) (l_width b).

(** feature/micro_structure/_price_sequences.py 57-58 *)
Definition l_high_low_volatility (p_high p_low : ser) (window : Z) : res ser :=
  r <- on_res (rolling window agg_mean) (on (map nsqr) (align logratio p_high p_low)) ;;
  Ok (on (map (fun x => ndiv x (Fin (4 * ln 2)))) r).
(** feature/micro_structure/_price_sequences.py 91-94 *)
Definition l_garman_klass_volatility (p_high p_low p_open p_close : ser) (window : Z) : res ser :=
  let returns_sq := on (map (fun x => nmul (Fin (1 / 2)) (nsqr x))) (align logratio p_high p_low) in
  let returns_close_open := on (map (fun x => nmul (Fin (2 * ln 2 - 1)) (nsqr x))) (align logratio p_close p_open) in
  a <- on_res (rolling window agg_mean) returns_sq ;; b <- on_res (rolling window agg_mean) returns_close_open ;;
  Ok (align nsub a b).
(** feature/micro_structure/_price_sequences.py 127-129 *)
Definition l_rs_terms (p_high p_low p_open p_close : ser) : ser :=
  align nadd (align nmul (align logratio p_high p_close) (align logratio p_high p_open))
             (align nmul (align logratio p_low p_close) (align logratio p_low p_open)).
Definition l_rogers_satchell_volatility (p_high p_low p_open p_close : ser) (window : Z) : res ser :=
  on_res (rolling window agg_mean) (l_rs_terms p_high p_low p_open p_close).
(** feature/micro_structure/_price_sequences.py 162-171 *)
Definition l_yang_zhang_volatility (p_high p_low p_open p_close : ser) (window : Z) : res ser :=
  if (window =? 1)%Z then Raise ZeroDivisionError
  else
    let coeff := (34 / 100) / (134 / 100 + IZR (window + 1) / IZR (window - 1)) in
    a <- on_res (rolling window agg_mean) (on (map nsqr) (align logratio p_open (on (shift 1) p_close))) ;;
    b <- on_res (rolling window agg_mean) (on (map nsqr) (align logratio p_close (on (shift 1) p_open))) ;;
    c <- l_rogers_satchell_volatility p_high p_low p_open p_close window ;;
    Ok (align nadd (align nadd a (on (map (nmul (Fin coeff))) b)) (on (map (nmul (Fin (1 - coeff)))) c)).
(** feature/micro_structure/_price_sequences.py 440-453 *)
Definition l_gamma (p_high p_low : ser) : ser :=
  on (map nsqr) (align logratio (on (roll 2 agg_max) p_high) (on (roll 2 agg_min) p_low)).
Definition l_beta (p_high p_low : ser) (window : Z) : res ser :=
  on_res (rolling window agg_mean) (on (roll 2 agg_sum) (on (map nsqr) (align logratio p_high p_low))).
(** feature/micro_structure/_price_sequences.py 456-462: the in-place subtraction keeps the index of its left side *)
Definition update (f : num -> num -> num) (s u : ser) : ser :=
  let r := align f s u in if same_labels (labels r) (labels s) then r else map (fun k => (k, at_label r k)) (labels s).
Definition l_alpha (beta gamma : ser) : ser :=
  on (map clip0) (update nsub (on (map (fun b => ndiv (nmul (Fin (sqrt 2 - 1)) (nsqrt b)) (Fin den))) beta)
                              (on (map (fun g => nneg (nsqrt (ndiv g (Fin den))))) gamma)).
(** feature/micro_structure/_price_sequences.py 465-472 *)
Definition l_sigma (beta gamma : ser) : ser :=
  let k2 := sqrt (8 / PI) in
  on (map clip0) (update nadd (on (map (fun b => ndiv (nmul (Fin (/ sqrt 2 - 1)) (nsqrt b)) (Fin (k2 * den)))) beta)
                              (on (map (fun g => nsqrt (ndiv g (Fin (k2 * k2 * den))))) gamma)).
(** feature/micro_structure/_price_sequences.py 201-204 *)
Definition l_becker_parkinson_volatility (p_high p_low : ser) (window : Z) : res ser :=
  beta <- l_beta p_high p_low window ;; Ok (l_sigma beta (l_gamma p_high p_low)).
(** feature/micro_structure/_price_sequences.py 230-234 *)
Definition l_corwin_schultz_spread (p_high p_low : ser) (window : Z) : res ser :=
  beta <- l_beta p_high p_low window ;;
  Ok (on (map (fun a => ndiv (nmul (Fin 2) (nsub (nexp a) (Fin 1))) (nadd (nexp a) (Fin 1)))) (l_alpha beta (l_gamma p_high p_low))).
(** feature/micro_structure/_price_sequences.py 433-434 *)
Definition l_roll_impact (p_close volume : ser) (window : Z) : res ser :=
  r <- on_res (fun l => roll_measure l window) p_close ;; Ok (align ndiv r (align nmul volume p_close)).
(** feature/micro_structure/_price_sequences.py 272-287: one DataFrame of the four Series *)
Definition l_edge_spread (p_high p_low p_open p_close : ser) (window : Z) (sign : bool) : res ser :=
  let '(ix, cols) := frame [p_open; p_high; p_low; p_close] in
  v <- edge_spread (nth 1 cols []) (nth 2 cols []) (nth 0 cols []) (nth 3 cols []) window sign ;; Ok (combine ix v).
(** feature/micro_structure/_sequential_trade_models.py 32-34 *)
Definition l_vpin (volume buy_volume : ser) (window : Z) : res ser :=
  let sell_volume := align nsub volume buy_volume in
  let volume_imbalance := align ndiv (on (map nabs) (align nsub buy_volume sell_volume)) volume in
  on_res (rolling window agg_mean) volume_imbalance.
(** feature/micro_structure/_sequential_trade_models.py 77-79: t.cdf returns an array, which is multiplied by position; numpy broadcasts
    an array of length one. *)
Definition l_estimate_buy_volume (cdf : num -> num) (p_close volume sigma_p : ser) : res ser :=
  let normalized := align ndiv (on (diff 1) p_close) sigma_p in
  if Nat.eqb (length normalized) (length volume) then Ok (combine (labels volume) (lift2 nmul (values volume) (map cdf (values normalized))))
  else if Nat.eqb (length normalized) 1 then Ok (on (map (fun x => nmul x (cdf (nth 0 (values normalized) NaN)))) volume)
  else Raise ValueError.
(** feature/micro_structure/_strategic_trade_models.py 43-46 *)
Definition l_kyle_lambda (p_close volume : ser) (window : Z) : res ser :=
  let delta_p := on (diff 1) p_close in
  on_res (rolling window agg_mean) (align ndiv delta_p (align nmul (on (map nsign) delta_p) volume)).
(** feature/micro_structure/_strategic_trade_models.py 81-83 *)
Definition l_amihud_lambda (p_close volume : ser) (window : Z) : res ser :=
  on_res (rolling window agg_mean) (align ndiv (on (fun l => map nabs (pct_change l)) p_close) (align nmul volume p_close)).
(** feature/micro_structure/_strategic_trade_models.py 122-125 *)
Definition l_hasbrouck_lambda (p_close volume : ser) (window : Z) : res ser :=
  let d := align logratio p_close (on (shift 1) p_close) in
  on_res (rolling window agg_mean) (align ndiv d (align nmul (on (map nsign) d) (on (map nsqrt) (align nmul volume p_close)))).
