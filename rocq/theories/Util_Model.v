(** Model of quantfinlib/util/_validate.py, _logging.py, _custom_types.py, datasets/_dataloader.py and of the logger
    set-up in distance/distance_matrix.py. *)
From Coq Require Import String List Arith Bool ZArith.
From Verif Require Import Base Num Sim_Model Dist_Model.
Import ListNotations.

(* ------------------------------------------------------------------ *)
(** ** validating decorators *)

(** A Python argument: None or an object *)
Inductive arg := ANone | AObj (o : obj).

(** inspect.signature: the names of the positional-or-keyword parameters in order, and whether there is a **kwargs.
    Simplification: no decorated function has *args, keyword-only or positional-only parameters. *)
Record signature := mkSig { params : list string; varkw : bool }.

Fixpoint lookup {V} (name : string) (l : list (string * V)) : option V :=
  match l with
  | [] => None
  | (k, v) :: t => if String.eqb k name then Some v else lookup name t
  end.
Definition mem (name : string) (l : list string) : bool := existsb (String.eqb name) l.

(** inspect.Signature.bind_partial applied to the positional and keyword arguments, .arguments: positional arguments go to the parameters in order,
    keywords to the parameter of that name; TypeError for too many positional arguments, for a parameter given twice and
    for an unknown keyword when there is no **kwargs.  Extra keywords end up in one entry for the **kwargs parameter
    (no decorated function names it in the decorator), so they are left out here. *)
Fixpoint bind_keywords {V} (sig : signature) (bound : list (string * V)) (kwargs : list (string * V)) :
  res (list (string * V)) :=
  match kwargs with
  | [] => Ok bound
  | (k, v) :: t =>
      if mem k (params sig) then
        match lookup k bound with
        | Some _ => Raise TypeError
        | None => bind_keywords sig (bound ++ [(k, v)]) t
        end
      else if varkw sig then bind_keywords sig bound t
      else Raise TypeError
  end.
Definition bind_partial {V} (sig : signature) (args : list V) (kwargs : list (string * V)) : res (list (string * V)) :=
  if Nat.ltb (length (params sig)) (length args) then Raise TypeError
  else bind_keywords sig (combine (params sig) args) kwargs.

(** _validate.py 11-13 _check_dtype_series_or_array, 16-20 _check_ndim_shape_1Darray *)
Definition check_dtype_series_or_array (x : obj) : res unit :=
  match x with
  | OSeries _ | OArr1 _ | OArr2 _ | OArrN _ => Ok tt
  | _ => Raise ValueError
  end.
Definition ndim (x : obj) : nat :=
  match x with
  | OSeries _ | OArr1 _ => 1
  | OArr2 _ | OFrame _ _ => 2
  | OArrN n => n
  | _ => 0
  end.
Definition shape (x : obj) (k : nat) : nat :=
  match x, k with
  | OSeries l, 0 | OArr1 l, 0 => length l
  | OArr2 a, 0 | OFrame _ a, 0 => nrow a
  | OArr2 a, 1 | OFrame _ a, 1 => ncol a
  | _, _ => 0
  end.
Definition check_ndim_shape_1d (x : obj) : res unit :=
  if negb (Nat.eqb (ndim x) 1) then Raise ValueError
  else if Nat.ltb (shape x 0) 2 then Raise ValueError
  else Ok tt.
(** _validate.py 47-49 _check_dtype_frame_or_array, 52-56 _check_ndim_shape_2Darray *)
Definition check_dtype_frame_or_array (x : obj) : res unit :=
  match x with
  | OFrame _ _ | OArr1 _ | OArr2 _ | OArrN _ => Ok tt
  | _ => Raise ValueError
  end.
Definition check_ndim_shape_2d (x : obj) : res unit :=
  if negb (Nat.eqb (ndim x) 2) then Raise ValueError
  else if Nat.ltb (shape x 1) 2 then Raise ValueError
  else Ok tt.

(** the loop over the decorator's names, 33-38 and 69-74 *)
Fixpoint check_named (check : obj -> res unit) (names : list string) (bound : list (string * arg)) : res unit :=
  match names with
  | [] => Ok tt
  | n :: t =>
      _ <- match lookup n bound with
           | Some (AObj x) => check x
           | Some ANone | None => Ok tt
           end ;;
      check_named check t bound
  end.

(** a decorated function: what it does with its positional and keyword arguments *)
Definition pyfun (B : Type) := list arg -> list (string * arg) -> res B.

(** _validate.py 23-44 validate_series_or_1Darray and 59-80 validate_frame_or_2Darray.  functools.wraps leaves
    __wrapped__, so the signature of a function that is already decorated is that of the original function. *)
Definition validate_series_or_1darray {B} (sig : signature) (names : list string) (func : pyfun B) : pyfun B :=
  fun args kwargs =>
    bound <- bind_partial sig args kwargs ;;
    _ <- check_named (fun x => _ <- check_dtype_series_or_array x ;; check_ndim_shape_1d x) names bound ;;
    func args kwargs.
Definition validate_frame_or_2darray {B} (sig : signature) (names : list string) (func : pyfun B) : pyfun B :=
  fun args kwargs =>
    bound <- bind_partial sig args kwargs ;;
    _ <- check_named (fun x => _ <- check_dtype_frame_or_array x ;; check_ndim_shape_2d x) names bound ;;
    func args kwargs.

(** clustering/metrics.py 22-26 and 91-93: both decorators on one function *)
Definition gap_statistic_sig : signature := mkSig ["dist"; "labels"; "nb"; "random_state"]%string false.
Definition decorated_gap_statistic {B} (func : pyfun B) : pyfun B :=
  validate_series_or_1darray gap_statistic_sig ["labels"]%string
    (validate_frame_or_2darray gap_statistic_sig ["dist"]%string func).
(** distance/information.py 84-85 *)
Definition mutual_info_sig : signature := mkSig ["x"; "y"; "bins"; "norm"]%string false.
Definition decorated_mutual_info {B} (func : pyfun B) : pyfun B :=
  validate_series_or_1darray mutual_info_sig ["x"; "y"]%string func.

(* ------------------------------------------------------------------ *)
(** ** logger *)

Inductive sink := Console | LogFile (path : string) | Custom (k : nat).
(** a handler object: an identity, where it writes and its level (0 is NOTSET) *)
Record handler := mkHandler { hid : nat; hsink : sink; hlevel : Z }.
(** the logger "quantfinlib": its level (0: use the root logger's), its handlers in order; [fresh] numbers the handler
    objects; [out] is everything its handlers have written, oldest first; [distance_loaded]: whether
    quantfinlib.distance.distance_matrix has been imported *)
Record logger := mkLogger {
  level : Z; handlers : list handler; fresh : nat; out : list (sink * Z); distance_loaded : bool }.

(** _logging.py 7-8: a logger with no handlers at level WARN = 30 *)
Definition WARNING : Z := 30.
Definition INFO : Z := 20.
Definition initial : logger := mkLogger WARNING [] 0 [] false.

Definition set_level (v : Z) (g : logger) : logger := mkLogger v (handlers g) (fresh g) (out g) (distance_loaded g).
Definition set_handlers (hs : list handler) (g : logger) : logger :=
  mkLogger (level g) hs (fresh g) (out g) (distance_loaded g).
(** logging.Logger.removeHandler / addHandler: by identity, no duplicates *)
Fixpoint remove_first (i : nat) (l : list handler) : list handler :=
  match l with
  | [] => []
  | h :: t => if Nat.eqb (hid h) i then t else h :: remove_first i t
  end.
Definition remove_handler (h : handler) (g : logger) : logger := set_handlers (remove_first (hid h) (handlers g)) g.
Definition add_handler (h : handler) (g : logger) : logger :=
  if existsb (fun h' => Nat.eqb (hid h') (hid h)) (handlers g) then g else set_handlers (handlers g ++ [h]) g.
(** a new handler object *)
Definition new_handler (s : sink) (v : Z) (g : logger) : handler * logger :=
  (mkHandler (fresh g) s v, mkLogger (level g) (handlers g) (S (fresh g)) (out g) (distance_loaded g)).

(** logging.Logger.log with a message of level l: enabled when l is at least the effective level (the logger's own if
    it is not 0, else the root logger's), then handed to each handler whose level is at most l.  Not modelled: the root
    logger's handlers (messages propagate to them as well), logging.disable, and text formatting. *)
Definition log (root_level : Z) (l : Z) (g : logger) : logger :=
  let effective := if Z.eqb (level g) 0 then root_level else level g in
  if Z.leb effective l then
    mkLogger (level g) (handlers g) (fresh g)
      (out g ++ map (fun h => (hsink h, l)) (filter (fun h => Z.leb (hlevel h) l) (handlers g))) (distance_loaded g)
  else g.

(** _logging.py 11-42 configure_logger.  [can_open] tells whether the log file can be opened for appending; when not,
    logging.FileHandler raises (an OSError; FileNotFoundError when the directory is missing) at that point. *)
Definition configure_logger (root_level : Z) (can_open : string -> bool) (verbosity : Z) (log_to_file : bool)
  (path : string) (g : logger) : logger * res unit :=
  let g := set_level verbosity g in
  let g := fold_left (fun g h => remove_handler h g) (handlers g) g in
  let (h, g) := new_handler Console verbosity g in
  let g := add_handler h g in
  if log_to_file then
    if can_open path then
      let (h, g) := new_handler (LogFile path) verbosity g in
      let g := add_handler h g in
      (log root_level INFO g, Ok tt)
    else (g, Raise FileNotFoundError)
  else (log root_level INFO g, Ok tt).

(** distance/distance_matrix.py 22-23, run when the module is first imported: sets the level of the same logger *)
Definition import_distance (g : logger) : logger :=
  if distance_loaded g then g
  else mkLogger WARNING (handlers g) (fresh g) (out g) true.

(** what a program can do with the logger *)
Inductive log_op :=
| Configure (verbosity : Z) (log_to_file : bool) (path : string)
| ImportDistance
| UserAdds (s : sink) (v : Z)
| UserRemoves (h : handler)
| UserSetsLevel (v : Z)
| Message (l : Z).
Definition log_step (root_level : Z) (can_open : string -> bool) (g : logger) (o : log_op) : logger :=
  match o with
  | Configure v f p => fst (configure_logger root_level can_open v f p g)
  | ImportDistance => import_distance g
  | UserAdds s v => let (h, g) := new_handler s v g in add_handler h g
  | UserRemoves h => remove_handler h g
  | UserSetsLevel v => set_level v g
  | Message l => log root_level l g
  end.
Definition log_run (root_level : Z) (can_open : string -> bool) (ops : list log_op) (g : logger) : logger :=
  fold_left (log_step root_level can_open) ops g.

(* ------------------------------------------------------------------ *)
(** ** data sets *)

(** a DataFrame: name of the index, row labels, columns with their names in order *)
Record table (L V : Type) := mkTable { index_name : option string; rows : list L; columns : list (string * list V) }.
Arguments mkTable {L V}. Arguments index_name {L V}. Arguments rows {L V}. Arguments columns {L V}.

(** DataFrame.rename(columns=d): each column name that is a key of d is replaced; the index name is not a column *)
Definition rename_columns {L V} (d : list (string * string)) (t : table L V) : table L V :=
  mkTable (index_name t) (rows t)
    (map (fun c => (match lookup (fst c) d with Some n => n | None => fst c end, snd c)) (columns t)).

(** _dataloader.py 100-117 *)
Definition treasury_names : list (string * string) :=
  [("Date", "DATE"); ("1 Mo", "1m"); ("2 Mo", "2m"); ("3 Mo", "3m"); ("4 Mo", "4m"); ("6 Mo", "6m"); ("1 Yr", "1y");
   ("2 Yr", "2y"); ("3 Yr", "3y"); ("5 Yr", "5y"); ("7 Yr", "7y"); ("10 Yr", "10y"); ("20 Yr", "20y");
   ("30 Yr", "30y")]%string.

(** _dataloader.py 10-12 *)
Definition vix_path : string := "quantfinlib/datasets/resources/vix_ohlc.csv.gz".
Definition multi_index_path : string := "quantfinlib/datasets/resources/multi_index_close.csv.gz".
Definition treasury_path : string := "quantfinlib/datasets/resources/daily_treasury_rates.csv.gz".

(** The resource directory: the content of each file, if it exists.  [read_csv] is gzip plus pandas.read_csv(index_col=0,
    parse_dates=True), _dataloader.py 15-19.  Log messages are left out (reading df.index.max() for them is assumed not
    to raise). *)
Definition load {L V} (C : Type) (read_csv : C -> res (table L V)) (fs : string -> option C) (path : string) :
  res (table L V) :=
  match fs path with None => Raise FileNotFoundError | Some c => read_csv c end.

(** _dataloader.py 22-62 load_vix, 65-122 load_treasury_rates, 125-195 load_equity_indices *)
Definition load_vix {L V} (C : Type) (read_csv : C -> res (table L V)) (fs : string -> option C) : res (table L V) :=
  load C read_csv fs vix_path.
Definition load_treasury_rates {L V} (C : Type) (read_csv : C -> res (table L V)) (fs : string -> option C) :
  res (table L V) :=
  t <- load C read_csv fs treasury_path ;; Ok (rename_columns treasury_names t).
Definition load_equity_indices {L V} (C : Type) (read_csv : C -> res (table L V)) (fs : string -> option C) :
  res (table L V) :=
  load C read_csv fs multi_index_path.

(* ------------------------------------------------------------------ *)
(** ** annotations, util/_custom_types.py *)

(** numpy dtypes; sizes in bits *)
Inductive dtype := DBool | DInt (bits : nat) | DUint (bits : nat) | DFloat (bits : nat) | DObject | DOther (k : nat).
Definition dtype_eqb (a b : dtype) : bool :=
  match a, b with
  | DBool, DBool | DObject, DObject => true
  | DInt m, DInt n | DUint m, DUint n | DFloat m, DFloat n | DOther m, DOther n => Nat.eqb m n
  | _, _ => false
  end.
(** np.can_cast(from, to) with casting="safe": integers of 32 and 64 bits fit into 64-bit floats *)
Definition can_cast (a b : dtype) : bool :=
  match a, b with
  | _, DObject => true
  | DBool, DBool | DBool, DInt _ | DBool, DUint _ | DBool, DFloat _ => true
  | DInt m, DInt n | DUint m, DUint n | DFloat m, DFloat n => Nat.leb m n
  | DUint m, DInt n => Nat.ltb m n
  | DInt m, DFloat n | DUint m, DFloat n => Nat.leb (Nat.min 64 (2 * m)) n
  | DOther j, DOther k => Nat.eqb j k
  | _, _ => false
  end.

(** a value handed to a validated parameter: what the validators look at, and an identity *)
Inductive value :=
| VArray (id : nat) (t : dtype) (sh : list nat)
| VFrame (id : nat) (cols : list (string * dtype)) (n : nat)
| VSeries (id : nat) (t : dtype) (n : nat)
| VAny (id : nat).

(** a declared extent: "*", a number (or a string of one), or a string int() rejects *)
Inductive extent := EAny | ENum (z : Z) | EBad.
(** a declared shape of an array: a tuple, or anything else (such as "*"), which is not checked *)
Inductive array_shape := AShape (l : list extent) | AUnchecked.

(** _custom_types.py 44-46, the loop over the extents *)
Fixpoint check_extents (sh : list nat) (ex : list extent) : res unit :=
  match sh, ex with
  | d :: sh', e :: ex' =>
      match e with
      | EAny => check_extents sh' ex'
      | EBad => Raise ValueError
      | ENum z => if Z.eqb (Z.of_nat d) z then check_extents sh' ex' else Raise TypeError
      end
  | _, _ => Ok tt
  end.
(** _custom_types.py 33-48 validate_numpy_array; a dtype of None stands for typing.Any *)
Definition validate_numpy_array (sh : array_shape) (dt : option dtype) (v : value) : res value :=
  match v with
  | VArray _ t s =>
      if match dt with None => false | Some d => negb (can_cast t d) end then Raise TypeError
      else
        match sh with
        | AShape ex =>
            if negb (Nat.eqb (length ex) (length s)) then Raise TypeError
            else _ <- check_extents s ex ;; Ok v
        | AUnchecked => Ok v
        end
  | _ => Raise TypeError
  end.

(** a declared shape of a frame: "*", or a tuple of numbers and "*" *)
Inductive frame_shape := FAny | FTuple (l : list extent).
(** comparison of a tuple of ints with the declared tuple: a "*" or other string equals no int *)
Definition extent_is (d : nat) (e : extent) : bool := match e with ENum z => Z.eqb (Z.of_nat d) z | _ => false end.

(** _custom_types.py 101-107, the loop over the declared columns *)
Fixpoint check_columns (cols : list (string * dtype)) (decl : list (string * dtype)) : res unit :=
  match decl with
  | [] => Ok tt
  | (c, d) :: t =>
      match lookup c cols with
      | None => Raise TypeError
      | Some d' => if negb (dtype_eqb d' d) then Raise TypeError else check_columns cols t
      end
  end.
(** _custom_types.py 93-119 validate_dataframe.  Simplification: the frame's column names are distinct, and a declared
    numeric extent is an int (the string "3" would not equal 3 here). *)
Definition validate_dataframe (columns : option (list (string * dtype))) (dt : option dtype) (sh : frame_shape)
  (v : value) : res value :=
  match v with
  | VFrame _ cols n =>
      _ <- match columns with
           | Some decl => check_columns cols decl
           | None =>
               match dt with
               | Some d => if forallb (fun c => dtype_eqb (snd c) d) cols then Ok tt else Raise TypeError
               | None => Ok tt
               end
           end ;;
      _ <- match sh with
           | FTuple [r; c] => if extent_is n r && extent_is (length cols) c then Ok tt else Raise TypeError
           | _ => Ok tt
           end ;;
      Ok v
  | _ => Raise TypeError
  end.

(** _custom_types.py 159-175 validate_series; the declared length is "*", an int, or something else *)
Definition validate_series (dt : option dtype) (sh : extent) (v : value) : res value :=
  match v with
  | VSeries _ t n =>
      if match dt with None => false | Some d => negb (dtype_eqb t d) end then Raise TypeError
      else
        match sh with
        | EAny => Ok v
        | EBad => Raise TypeError
        | ENum z => if Z.eqb (Z.of_nat n) z then Ok v else Raise TypeError
        end
  | _ => Raise TypeError
  end.

(** train_test_split/_dtypes.py: IndexType, BoundPerFoldType, the arms of YType, and XType *)
Definition index_type := validate_numpy_array (AShape [EAny]) (Some (DInt 64)).
Definition bound_per_fold_type := validate_numpy_array (AShape [EAny; ENum 2]) (Some (DInt 64)).
Definition y_float_array := validate_numpy_array (AShape [EAny]) (Some (DFloat 64)).
Definition x_array := validate_numpy_array (AShape [EAny; EAny]) None.
Definition x_frame := validate_dataframe None None FAny.
