(** Model of the packages' __init__.py files and of the import statements a user writes against them. *)
From Coq Require Import String Ascii List Bool.
From Verif Require Import Base.
Import ListNotations.
Open Scope string_scope.

(** what a name of a package refers to: a submodule, or the object called [name] in a submodule *)
Inductive object := Module (sub : string) | Object (sub name : string).
(** `from <package>.<sub> import <names>`: importlib first binds the submodule (its first component) as an attribute of the
    package, then the statement binds the names *)
Record statement := From { f_attr : string; f_sub : string; f_names : list string }.
Definition run_statement (s : statement) : list (string * object) :=
  (f_attr s, Module (f_attr s)) :: map (fun n => (n, Object (f_sub s) n)) (f_names s).
(** an item of __all__: a string, or an object that is not a string *)
Inductive item := Str (s : string) | NotStr (name : string).

Inductive package := Sim | Util | Clustering | Feature | Indicators | MicroStructure | StructuralBreaks | Distance | Datasets | Splits.

(** the import statements of the ten __init__.py files: sim 19-22, util 3-6, clustering 3-4, feature 3, feature/indicators 33-39,
    feature/micro_structure 4-26, feature/structural_breaks (none), distance 3-18, datasets 3-4, train_test_split 3-4 *)
Definition statements (p : package) : list statement :=
  match p with
  | Sim => [From "_bm" "_bm" ["BrownianMotion"]; From "_gbm" "_gbm" ["GeometricBrownianMotion"];
            From "_quasi_random" "_quasi_random" ["QuasiRandom"]; From "_ou" "_ou" ["OrnsteinUhlenbeck"]]
  | Util => [From "_fs_utils" "_fs_utils" ["get_project_root"]; From "_logging" "_logging" ["configure_logger"; "logger"];
             From "_validate" "_validate" ["validate_series_or_1Darray"; "validate_frame_or_2Darray"];
             From "_dtypes" "_dtypes" ["to_numpy"; "SeriesOrArray"; "DataFrameOrArray"; "ArrayLike"]]
  | Clustering => [From "hierarchical" "hierarchical" ["HC"; "optimize_n_clusters"]; From "metrics" "metrics" ["gap_statistic"; "silhouette_tstat"]]
  | Feature => [From "structural_breaks" "structural_breaks.cusumtest" ["chu_stinchcombe_white_cusum_test"]]
  | Indicators =>
      [From "_bands" "_bands" ["BollingerBands"; "EwmBollingerBands"; "GenericBands"; "KeltnerBands"; "DonchianBands"];
       From "_base" "_base" ["rolling_mean"; "rolling_std"; "rolling_max"; "rolling_min"; "ewm_mean"; "ewm_std"; "average_true_range"; "rolling_mom"; "ewm_mom"];
       From "_macd" "_macd" ["macd"; "macd_signal"]; From "_rsi" "_rsi" ["rsi"; "ewm_rsi"]]
  | MicroStructure =>
      [From "_price_sequences" "_price_sequences"
         ["get_becker_parkinson_volatility"; "get_close_close_volatility"; "get_cowrin_schultz_spread"; "get_edge_spread"; "get_garman_klass_volatility";
          "get_high_low_volatility"; "get_rogers_satchell_volatility"; "get_roll_measure"; "get_roll_impact"; "get_yang_zhang_volatility"];
       From "_strategic_trade_models" "_strategic_trade_models" ["get_amihud_lambda"; "get_hasbrouck_lambda"; "get_kyle_lambda"];
       From "_sequential_trade_models" "_sequential_trade_models" ["estimate_buy_volume"; "get_vpin"]]
  | StructuralBreaks => []
  | Distance =>
      [From "correlation" "correlation"
         ["corr_to_abs_angular_dist"; "corr_to_angular_dist"; "corr_to_squared_angular_dist"; "pair_abs_angular_distance"; "pair_angular_distance"; "pair_squared_angular_distance"];
       From "information" "information" ["compute_entropies"; "kl_divergence_xy"; "mutual_info"; "var_info"];
       From "matrix_divergence" "matrix_divergence" ["log_det_divergence"; "von_neuman_divergence"];
       From "distance_matrix" "distance_matrix" ["get_corr_distance_matrix"; "get_info_distance_matrix"]]
  | Datasets => [From "_dataloader" "_dataloader" ["load_equity_indices"; "load_treasury_rates"; "load_vix"]]
  | Splits => [From "kfoldpe" "kfoldpe" ["TimeAwareKFold"]; From "walk_forward" "walk_forward" ["WalkForward"]]
  end.
(** __all__: sim/__init__.py 24 and util/__init__.py 8-18 list the objects themselves; the other packages have none *)
Definition all_of (p : package) : option (list item) :=
  match p with
  | Sim => Some [NotStr "BrownianMotion"; NotStr "GeometricBrownianMotion"; NotStr "OrnsteinUhlenbeck"; NotStr "QuasiRandom"]
  | Util => Some [NotStr "logger"; NotStr "get_project_root"; NotStr "configure_logger"; NotStr "validate_series_or_1Darray"; NotStr "validate_frame_or_2Darray";
                  NotStr "to_numpy"; NotStr "SeriesOrArray"; NotStr "DataFrameOrArray"; NotStr "ArrayLike"]
  | _ => None
  end.
(** the modules and directories next to each __init__.py, which a program may import besides *)
Definition submodules (p : package) : list string :=
  match p with
  | Sim => ["_base"; "_bm"; "_gbm"; "_ou"; "_quasi_random"]
  | Util => ["_custom_types"; "_dtypes"; "_fs_utils"; "_logging"; "_validate"]
  | Clustering => ["hierarchical"; "metrics"]
  | Feature => ["indicators"; "micro_structure"; "structural_breaks"]
  | Indicators => ["_bands"; "_base"; "_macd"; "_rsi"]
  | MicroStructure => ["_price_sequences"; "_sequential_trade_models"; "_strategic_trade_models"]
  | StructuralBreaks => ["cusumtest"]
  | Distance => ["correlation"; "distance_matrix"; "information"; "matrix_divergence"]
  | Datasets => ["_dataloader"; "resources"]
  | Splits => ["_base"; "_dtypes"; "combinatorial_cv"; "kfoldpe"; "walk_forward"]
  end.

(** The package's namespace after its __init__.py has run and the program (or another module) has imported the submodules
    [extra]: bindings in order, the last one of a name counts.  Simplification: names Python itself puts there (__name__,
    __path__, ...) all begin with an underscore and are left out. *)
Definition attributes (p : package) (extra : list string) : list (string * object) :=
  (flat_map run_statement (statements p) ++ map (fun n => (n, Module n)) extra)%list.
Definition getattr (l : list (string * object)) (n : string) : option object :=
  fold_left (fun acc b => if String.eqb (fst b) n then Some (snd b) else acc) l None.

(** the user's namespace *)
Definition names := string -> option object.
Definition bind_name (ns : names) (n : string) (o : object) : names := fun m => if String.eqb m n then Some o else ns m.
Definition private (n : string) : bool := match n with String c _ => Ascii.eqb c "_"%char | EmptyString => false end.
Definition is_str (i : item) : bool := match i with Str _ => true | NotStr _ => false end.

(** the names of __all__ one after the other; what was bound before a failure stays *)
Fixpoint bind_all (l : list (string * object)) (items : list string) (ns : names) : names * res unit :=
  match items with
  | [] => (ns, Ok tt)
  | n :: t => match getattr l n with Some o => bind_all l t (bind_name ns n o) | None => (ns, Raise AttributeError) end
  end.
(** `from <package> import *`.  With __all__: importlib's _handle_fromlist raises TypeError for any item that is not a string,
    before anything is bound.  Simplification: a string in __all__ that is no attribute is not looked for among the
    submodules.  Without __all__: every public name. *)
Definition star_import (p : package) (extra : list string) (ns : names) : names * res unit :=
  match all_of p with
  | Some items =>
      if forallb is_str items then
        bind_all (attributes p extra) (flat_map (fun i => match i with Str s => [s] | NotStr _ => [] end) items) ns
      else (ns, Raise TypeError)
  | None => (fold_left (fun ns b => if private (fst b) then ns else bind_name ns (fst b) (snd b)) (attributes p extra) ns, Ok tt)
  end.
(** `from <package> import name`: the attribute, else the submodule of that name ([None]: ImportError) *)
Definition from_import (p : package) (extra : list string) (n : string) (ns : names) : option names :=
  match getattr (attributes p extra) n with
  | Some o => Some (bind_name ns n o)
  | None => if existsb (String.eqb n) (submodules p) then Some (bind_name ns n (Module n)) else None
  end.
