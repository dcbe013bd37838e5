(** What a user expects of the validators, the logger, the data sets and the annotations. *)
From Coq Require Import String List Arith Bool ZArith.
From Verif Require Import Base Num Sim_Model Dist_Model Util_Model.
Import ListNotations.

(** ** validators *)

(** a Series or one-dimensional array with at least two elements *)
Definition valid_1d (o : obj) : Prop := exists l, (o = OArr1 l \/ o = OSeries l) /\ 2 <= length l.
(** a DataFrame or two-dimensional array with at least two columns *)
Definition valid_2d (o : obj) : Prop := exists a, (o = OArr2 a \/ exists names, o = OFrame names a) /\ 2 <= ncol a.

(** parameters are distinct and no keyword is written twice: Python's syntax guarantees both *)
Definition proper (sig : signature) (kwargs : list (string * arg)) : Prop :=
  NoDup (params sig) /\ NoDup (map fst kwargs).
(** Python can match the arguments with the parameters: not too many, no parameter twice, no unknown keyword *)
Definition matches (sig : signature) (args : list arg) (kwargs : list (string * arg)) : Prop :=
  length args <= length (params sig) /\
  forall k v, In (k, v) kwargs ->
    ~ In k (firstn (length args) (params sig)) /\ (In k (params sig) \/ varkw sig = true).
(** the caller gives the value v to the parameter [name], by position or by keyword *)
Definition gives (sig : signature) (args : list arg) (kwargs : list (string * arg)) (name : string) (v : arg) : Prop :=
  (exists i, nth_error (params sig) i = Some name /\ nth_error args i = Some v) \/
  (In name (params sig) /\ In (name, v) kwargs).
(** all the named arguments that are given and not None are valid *)
Definition all_valid (valid : obj -> Prop) (names : list string) (sig : signature) (args : list arg)
  (kwargs : list (string * arg)) : Prop :=
  forall name o, In name names -> gives sig args kwargs name (AObj o) -> valid o.

(** ** logger *)

(** the lowest level that a call with this verbosity lets through; verbosity 0 (NOTSET) defers to the root logger *)
Definition threshold (root_level verbosity : Z) : Z := if Z.eqb verbosity 0 then Z.max root_level 0 else verbosity.
(** what a message of level l writes when everything from [from] on is shown *)
Definition lines (from : Z) (log_to_file : bool) (path : string) (l : Z) : list (sink * Z) :=
  if Z.leb from l then (Console, l) :: (if log_to_file then [(LogFile path, l)] else []) else [].
(** handlers described by where they write and at which level *)
Definition shown (g : logger) : list (sink * Z) := map (fun h => (hsink h, hlevel h)) (handlers g).

(** ** data sets *)

(** the documented maturities *)
Inductive maturity : string -> string -> Prop :=
| in_months : forall n, In n ["1"; "2"; "3"; "4"; "6"]%string -> maturity (n ++ " Mo") (n ++ "m")
| in_years : forall n, In n ["1"; "2"; "3"; "5"; "7"; "10"; "20"; "30"]%string -> maturity (n ++ " Yr") (n ++ "y").
(** how a column is to be renamed *)
Definition documented (old new : string) : Prop := maturity old new \/ (old = "Date"%string /\ new = "DATE"%string).
Definition renamed (old new : string) : Prop :=
  documented old new \/ ((forall n, ~ documented old n) /\ new = old).

(** ** annotations *)

(** an extent of d is what was declared *)
Definition fits (d : nat) (e : extent) : Prop := e = EAny \/ e = ENum (Z.of_nat d).
(** numpy's safe casts: anything to object, bool to bool and numbers, a number type to a wider one of its kind, unsigned
    integers to wider signed ones, integers to floats of twice their size or of 64 bits *)
Definition castable (a b : dtype) : Prop :=
  b = DObject \/ (a = DBool /\ (b = DBool \/ exists n, b = DInt n \/ b = DUint n \/ b = DFloat n))
  \/ (exists k, a = DOther k /\ b = DOther k)
  \/ exists m n, (m <= n /\ ((a = DInt m /\ b = DInt n) \/ (a = DUint m /\ b = DUint n) \/ (a = DFloat m /\ b = DFloat n)))
     \/ (m < n /\ a = DUint m /\ b = DInt n) \/ ((2 * m <= n \/ 64 <= n) /\ (a = DInt m \/ a = DUint m) /\ b = DFloat n).
Definition array_fits (sh : array_shape) (dt : option dtype) (v : value) : Prop :=
  exists id t s, v = VArray id t s /\
    (forall d, dt = Some d -> castable t d) /\
    (forall ex, sh = AShape ex -> Forall2 fits s ex).
(** the declaration contains only "*" and numbers *)
Definition readable (sh : array_shape) : Prop := forall ex, sh = AShape ex -> ~ In EBad ex.
Definition frame_fits (columns : option (list (string * dtype))) (dt : option dtype) (sh : frame_shape) (v : value) : Prop :=
  exists id cols n, v = VFrame id cols n /\
    (forall decl, columns = Some decl -> forall c d, In (c, d) decl -> In (c, d) cols) /\
    (columns = None -> forall d, dt = Some d -> forall c t, In (c, t) cols -> t = d) /\
    (forall r c, sh = FTuple [r; c] -> r = ENum (Z.of_nat n) /\ c = ENum (Z.of_nat (length cols))).
Definition distinct_columns (v : value) : Prop :=
  match v with VFrame _ cols _ => NoDup (map fst cols) | _ => True end.
Definition series_fits (dt : option dtype) (sh : extent) (v : value) : Prop :=
  exists id t n, v = VSeries id t n /\ (forall d, dt = Some d -> t = d) /\ fits n sh.
