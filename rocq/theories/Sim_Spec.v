(** Vocabulary of the statements about the simulation models. *)
From Coq Require Import Reals String ZArith List Arith Bool.
From Verif Require Import Base Num Sim_Model.
Import ListNotations.
Open Scope R_scope.

(** a list / matrix of finite numbers *)
Definition fins (l : list R) : list num := map Fin l.
Definition farr (r c : nat) (f : nat -> nat -> R) : arr2 := mkArr r c (fun i j => Fin (f i j)).
(** a noise stream of finite numbers *)
Definition fnoise (z : nat -> R) : noise := fun i => Fin (z i).
(** value of a parameter given once for all variates, or once per variate *)
Definition pget (l : list R) (v : nat) : R := if Nat.eqb (length l) 1 then nth 0 l 0 else nth v l 0.
(** one value, or one per variate *)
Definition perV {A} (l : list A) (V : nat) : Prop := length l = 1%nat \/ length l = V.
(** the standard normal number drawn for step t, path p, variate k *)
Definition draw (V P : nat) (z : nat -> R) (t p k : nat) : R := z ((t * P + p) * V + k)%nat.
(** variate v of the correlated noise vector of step t, path p *)
Definition shock (V P : nat) (L : option (nat -> nat -> R)) (z : nat -> R) (t p v : nat) : R :=
  match L with
  | None => draw V P z t p v
  | Some l => rsum (map (fun k => l v k * draw V P z t p k) (seq 0 V))
  end.

(** ** Data arguments *)
(** all entries of the data, a table row by row *)
Definition entries (x : sdata) : option (list num) :=
  match x with
  | DNp1 l | DSeries _ _ l | DList l => Some l
  | DScalar v => Some [v]
  | DNp2 a | DFrame _ _ a => Some (concat (map (fun i => map (at2 a i) (seq 0 (ncol a))) (seq 0 (nrow a))))
  | DOther => None
  end.
(** first and last observation: a series or 1-d array holds one value per observation, a list is one observation *)
Definition first_obs (x : sdata) : option (list num) :=
  match x with
  | DNp1 l | DSeries _ _ l => option_map (fun v => [v]) (nth_error l 0)
  | DNp2 a | DFrame _ _ a => if Nat.eqb (nrow a) 0 then None else Some (map (at2 a 0) (seq 0 (ncol a)))
  | DList l => Some l
  | DScalar v => Some [v]
  | DOther => None
  end.
Definition last_obs (x : sdata) : option (list num) :=
  match x with
  | DNp1 l | DSeries _ _ l => option_map (fun v => [v]) (nth_error l (length l - 1))
  | DNp2 a | DFrame _ _ a => if Nat.eqb (nrow a) 0 then None else Some (map (at2 a (nrow a - 1)) (seq 0 (ncol a)))
  | DList l => Some l
  | DScalar v => Some [v]
  | DOther => None
  end.
(** number of rows of arrays, Series and frames *)
Definition data_rows (x : sdata) : option nat :=
  match x with
  | DNp1 l | DSeries _ _ l => Some (length l)
  | DNp2 a | DFrame _ _ a => Some (nrow a)
  | DList _ | DScalar _ | DOther => None
  end.
(** stamps of data with a DatetimeIndex *)
Definition dates (x : sdata) : option (list Z) :=
  match x with DSeries _ (Dt _ st) _ | DFrame _ (Dt _ st) _ => Some st | _ => None end.
(** documented length of a period, in years *)
Definition years (code : string) (y : R) : Prop :=
  (code = "D"%string /\ y = 1 / 365) \/ (code = "B"%string /\ y = 1 / 252) \/ (code = "W"%string /\ y = 7 / 365)
  \/ (In code ["M"; "ME"; "MS"]%string /\ y = 1 / 12) \/ (In code ["Q"; "QE"; "QS"]%string /\ y = 1 / 4)
  \/ (In code ["Y"; "YE"; "YS"]%string /\ y = 1).

(** ** Column names *)
(** The documented names: [base] names of the variates, then one suffix per path. *)
Definition col_name (P : nat) (base : list string) (p v : nat) : option string :=
  if Nat.eqb P 1 then nth_error base v
  else option_map (fun c => append c (append "_"%string (str_nat p))) (nth_error base v).

(** Base names: the argument, else the names of the fitted data, else S or S0, S1, ... *)
Definition base_names (st : fitinfo) (V : nat) (columns : option (list string)) : list string :=
  match columns, f_names st with
  | Some c, _ => c
  | None, Some ((_ :: _) as c) => c
  | None, _ => if Nat.ltb 1 V then map (fun i => append "S" (str_nat i)) (seq 0 V) else ["S"%string]
  end.

(** ** Results of path_sample: shape, entries, column names, index *)
Definition out_rows (o : output) : nat := match o with ONp a | OFrame _ _ a => nrow a | OSeries _ _ l => length l end.
Definition out_cols (o : output) : nat := match o with ONp a | OFrame _ _ a => ncol a | OSeries _ _ _ => 1 end.
Definition out_at (o : output) (t c : nat) : num :=
  match o with ONp a | OFrame _ _ a => at2 a t c | OSeries _ _ l => nth t l NaN end.
Definition out_names (o : output) : option (list string) :=
  match o with ONp _ => None | OSeries n _ _ => Some [n] | OFrame ns _ _ => Some ns end.
Definition out_index (o : output) : option daterange :=
  match o with ONp _ => None | OSeries _ ix _ | OFrame _ ix _ => Some ix end.


(** [L] is what numpy's Cholesky factorisation returns for the correlation argument (none given: no factor). *)
Definition chol_of (chol : arr2 -> res arr2) (V : nat) (cor : option arr2) (L : option (nat -> nat -> R)) : Prop :=
  match cor, L with
  | None, None => True
  | Some c, Some l => chol c = Ok (farr V V l)
  | _, _ => False
  end.

(** density of the normal law with mean mu and variance var *)
Definition normal_pdf (mu var x : R) : R := exp (- ((x - mu) ^ 2 / (2 * var))) / sqrt (2 * PI * var).
(** minus log-likelihood of independent normal observations f t v, t < n, v < V *)
Definition normal_nll (n V : nat) (mu var : nat -> R) (f : nat -> nat -> R) : R :=
  - rsum (map (fun t => rsum (map (fun v => ln (normal_pdf (mu v) (var v) (f t v))) (seq 0 V))) (seq 0 n)).
