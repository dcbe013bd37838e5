(** Series operations of pandas 2.2 used by the feature modules (quantfinlib/feature).  A series is the list of its values; all
    series of one call carry the same index (for numpy inputs this is the RangeIndex the decorator creates: a shorter input is
    padded with NaN by the alignment, see [lift2]).  Names of series are not modelled.  Numbers are exact (Num.v). *)
From Coq Require Import Reals ZArith List Arith Bool.
From Verif Require Import Base Num.
Import ListNotations.
Open Scope R_scope.

(** pandas binary operation: aligned on the union of the indexes, missing positions are NaN *)
Definition lift2 (f : num -> num -> num) (xs ys : list num) : list num :=
  map (fun i => f (nth i xs NaN) (nth i ys NaN)) (seq 0 (Nat.max (length xs) (length ys))).
(** Series.shift(p); p < 0 shifts towards the past *)
Definition shift (p : Z) (l : list num) : list num :=
  map (fun i => if (Z.of_nat i <? p)%Z then NaN else nth (Z.to_nat (Z.of_nat i - p)) l NaN) (seq 0 (length l)).
(** Series.diff(p) *)
Definition diff (p : Z) (l : list num) : list num := lift2 nsub l (shift p l).
(** Series.where(cond, 0) *)
Definition where0 (cond : num -> bool) (value : num -> num) (l : list num) : list num :=
  map (fun x => if cond x then value x else Fin 0) l.
(** Series.ffill *)
Fixpoint ffill_from (last : num) (l : list num) : list num :=
  match l with
  | [] => []
  | x :: l' => let y := if is_nan x then last else x in y :: ffill_from y l'
  end.
Definition ffill (l : list num) : list num := ffill_from NaN l.
(** Series.pct_change(): pads missing values, then x_t / x_{t-1} - 1 *)
Definition pct_change (l : list num) : list num :=
  let d := ffill l in map (fun r => nsub r (Fin 1)) (lift2 ndiv d (shift 1 d)).
(** np.sign *)
Definition nsign (x : num) : num :=
  match x with
  | Fin a => if rltb 0 a then Fin 1 else if rltb a 0 then Fin (-1) else Fin 0
  | NaN => NaN | PInf => Fin 1 | NInf => Fin (-1)
  end.

(** the values of a window when none of them is missing; windows treat infinities as missing *)
Fixpoint finite (l : list num) : option (list R) :=
  match l with
  | [] => Some []
  | Fin a :: l' => option_map (cons a) (finite l')
  | _ :: _ => None
  end.
(** Series.rolling(w).<agg>(), with the default min_periods = w: NaN unless the last w values exist and are all present *)
Definition roll_at (w : nat) (agg : list R -> num) (l : list num) (i : nat) : num :=
  if Nat.ltb (S i) w then NaN
  else match finite (skipn (S i - w) (firstn (S i) l)) with Some v => agg v | None => NaN end.
Definition roll (w : nat) (agg : list R -> num) (l : list num) : list num := map (roll_at w agg l) (seq 0 (length l)).
Definition rolling (w : Z) (agg : list R -> num) (l : list num) : res (list num) :=
  if (w <? 0)%Z then Raise ValueError else Ok (roll (Z.to_nat w) agg l).
Definition agg_sum (v : list R) : num := Fin (rsum v).
Definition agg_mean (v : list R) : num := nmean (map Fin v).
Definition agg_var (v : list R) : num := nvar 1 (map Fin v).
Definition agg_std (v : list R) : num := nsqrt (agg_var v).
Definition agg_max (v : list R) : num := match v with [] => NaN | x :: v' => Fin (fold_left Rmax v' x) end.
Definition agg_min (v : list R) : num := match v with [] => NaN | x :: v' => Fin (fold_left Rmin v' x) end.
(** x.rolling(w).cov(y): the pairs with a missing member count as missing;
    (mean(xy) - mean(x) mean(y)) * (w / (w - 1)) *)
Definition agg_cov (x y : list R) : num :=
  nmul (nsub (agg_mean (map (fun p => fst p * snd p) (combine x y))) (nmul (agg_mean x) (agg_mean y)))
       (ndiv (nofnat (length x)) (nsub (nofnat (length x)) (Fin 1))).
Definition rolling_cov (w : Z) (xs ys : list num) : res (list num) :=
  if (w <? 0)%Z then Raise ValueError
  else
    let n := Nat.max (length xs) (length ys) in
    let win l i := finite (skipn (S i - Z.to_nat w) (firstn (S i) l)) in
    let pad l := map (fun i => nth i l NaN) (seq 0 n) in
    Ok (map (fun i => if Nat.ltb (S i) (Z.to_nat w) then NaN
                      else match win (pad xs) i, win (pad ys) i with
                           | Some x, Some y => agg_cov x y
                           | _, _ => NaN
                           end) (seq 0 n)).

(** a present value (exponential windows, too, treat infinities as missing) *)
Definition present (x : num) : option R := match x with Fin a => Some a | _ => None end.
(** Series.ewm(alpha=a, min_periods).mean(), adjust=True, ignore_na=False: pandas' loop.  State: current average (None = NaN), weight of
    the past, number of observations. *)
Definition ewm_state := (option R * R * nat)%type.
Definition ewm_step (a : R) (s : ewm_state) (x : num) : ewm_state :=
  let '(m, old, nobs) := s in
  match m, present x with
  | Some mean, Some cur =>
      let old' := old * (1 - a) in
      (Some (if reqb mean cur then mean else (old' * mean + 1 * cur) / (old' + 1)), old' + 1, S nobs)
  | Some mean, None => (Some mean, old * (1 - a), nobs)
  | None, Some cur => (Some cur, old, S nobs)
  | None, None => (None, old, nobs)
  end.
Definition ewm_out (minp : nat) (s : ewm_state) : num :=
  let '(m, _, nobs) := s in
  match m with Some mean => if Nat.leb (Nat.max minp 1) nobs then Fin mean else NaN | None => NaN end.
Fixpoint ewm_run (a : R) (minp : nat) (s : ewm_state) (l : list num) : list num :=
  match l with
  | [] => []
  | x :: l' => let s' := ewm_step a s x in ewm_out minp s' :: ewm_run a minp s' l'
  end.
Definition ewm_alpha (a : R) (minp : nat) (l : list num) : res (list num) :=
  if rltb 0 a && rleb a 1 then Ok (ewm_run a minp (None, 1, 0%nat) l) else Raise ValueError.
(** Series.ewm(span=span, min_periods).mean() *)
Definition ewm_span (span : R) (minp : nat) (l : list num) : res (list num) :=
  if rltb span 1 then Raise ValueError else Ok (ewm_run (2 / (span + 1)) minp (None, 1, 0%nat) l).

(** Series.ewm(span=span).std() = sqrt of pandas' ewmcov loop with bias=False.  State: mean (None = NaN), covariance, sum of weights,
    sum of squared weights, weight of the past. *)
Record vstate := mkV { v_mean : option R; v_cov : R; v_sum : R; v_sum2 : R; v_old : R; v_nobs : nat }.
Definition var_step (a : R) (s : vstate) (x : num) : vstate :=
  match v_mean s, present x with
  | Some mean, Some cur =>
      let sum := v_sum s * (1 - a) in let sum2 := v_sum2 s * ((1 - a) * (1 - a)) in let old := v_old s * (1 - a) in
      let mean' := if reqb mean cur then mean else (old * mean + 1 * cur) / (old + 1) in
      let cov' := (old * (v_cov s + (mean - mean') * (mean - mean')) + 1 * ((cur - mean') * (cur - mean'))) / (old + 1) in
      mkV (Some mean') cov' (sum + 1) (sum2 + 1) (old + 1) (S (v_nobs s))
  | Some mean, None => mkV (Some mean) (v_cov s) (v_sum s * (1 - a)) (v_sum2 s * ((1 - a) * (1 - a))) (v_old s * (1 - a)) (v_nobs s)
  | None, Some cur => mkV (Some cur) (v_cov s) (v_sum s) (v_sum2 s) (v_old s) (S (v_nobs s))
  | None, None => s
  end.
Definition var_out (s : vstate) : num :=
  if Nat.leb 1 (v_nobs s)
  then let n := v_sum s * v_sum s in let d := n - v_sum2 s in if rltb 0 d then Fin (n / d * v_cov s) else NaN
  else NaN.
(** pandas' zsqrt: negative values become 0 *)
Definition zsqrt (x : num) : num := match x with Fin a => if rltb a 0 then Fin 0 else Fin (sqrt a) | y => nsqrt y end.
Fixpoint var_run (a : R) (s : vstate) (l : list num) : list num :=
  match l with
  | [] => []
  | x :: l' => let s' := var_step a s x in zsqrt (var_out s') :: var_run a s' l'
  end.
Definition ewm_std_span (span : R) (l : list num) : res (list num) :=
  if rltb span 1 then Raise ValueError else Ok (var_run (2 / (span + 1)) (mkV None 0 1 1 1 0) l).
