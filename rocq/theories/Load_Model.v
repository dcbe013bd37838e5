(** Model of loading the library's modules: which files import which, and how Python executes an import. *)
From Coq Require Import List Bool.
From Verif Require Import Base.
Import ListNotations.

(** the files of quantfinlib; a package stands for its __init__.py *)
Inductive file :=
| quantfinlib
| util | util_custom_types | util_dtypes | util_fs_utils | util_logging | util_validate
| datatypes | datatypes_timeseries
| math | math_cov
| clustering | clustering_hierarchical | clustering_metrics
| datasets | datasets_dataloader
| distance | distance_correlation | distance_matrix | distance_information | distance_matrix_divergence
| feature
| indicators | indicators_bands | indicators_base | indicators_macd | indicators_rsi
| micro_structure | micro_price_sequences | micro_sequential | micro_strategic
| structural_breaks | structural_breaks_cusumtest
| sim | sim_base | sim_bm | sim_gbm | sim_ou | sim_quasi_random
| splits | splits_base | splits_dtypes | splits_combinatorial_cv | splits_kfoldpe | splits_walk_forward.
Definition file_dec : forall a b : file, {a = b} + {a <> b}. Proof. decide equality. Defined.

(** the directory a file is in *)
Definition parent (m : file) : option file :=
  match m with
  | quantfinlib => None
  | util | datatypes | math | clustering | datasets | distance | feature | sim | splits => Some quantfinlib
  | util_custom_types | util_dtypes | util_fs_utils | util_logging | util_validate => Some util
  | datatypes_timeseries => Some datatypes
  | math_cov => Some math
  | clustering_hierarchical | clustering_metrics => Some clustering
  | datasets_dataloader => Some datasets
  | distance_correlation | distance_matrix | distance_information | distance_matrix_divergence => Some distance
  | indicators | micro_structure | structural_breaks => Some feature
  | indicators_bands | indicators_base | indicators_macd | indicators_rsi => Some indicators
  | micro_price_sequences | micro_sequential | micro_strategic => Some micro_structure
  | structural_breaks_cusumtest => Some structural_breaks
  | sim_base | sim_bm | sim_gbm | sim_ou | sim_quasi_random => Some sim
  | splits_base | splits_dtypes | splits_combinatorial_cv | splits_kfoldpe | splits_walk_forward => Some splits
  end.
(** the statements `from quantfinlib... import ...` at the top of each file, in order (util/__init__.py 3-6, util/_validate.py 6,
    clustering/__init__.py 3-4, hierarchical.py 10-12, metrics.py 8, datasets/__init__.py 3, _dataloader.py 8,
    distance/__init__.py 3-18, information.py 10, distance_matrix.py 10-17, feature/__init__.py 3, indicators/__init__.py 33-39,
    _bands.py 8, _macd.py 5, _rsi.py 4, micro_structure/__init__.py 4-23, _price_sequences.py 6,
    _sequential_trade_models.py 3, _strategic_trade_models.py 3, sim/__init__.py 19-22, _base.py 20, _bm.py 21, _gbm.py 21,
    _ou.py 22, _quasi_random.py 19-20, train_test_split/__init__.py 3-4, _base.py 10, _dtypes.py 9, kfoldpe.py 9-10,
    walk_forward.py 10-11).  Imports of other libraries are left out. *)
Definition imports (m : file) : list file :=
  match m with
  | util => [util_fs_utils; util_logging; util_validate; util_dtypes]
  | util_validate => [util_dtypes]
  | clustering => [clustering_hierarchical; clustering_metrics]
  | clustering_hierarchical => [distance_matrix; clustering_metrics; util]
  | clustering_metrics => [util]
  | datasets => [datasets_dataloader]
  | datasets_dataloader => [util]
  | distance => [distance_correlation; distance_information; distance_matrix_divergence; distance_matrix]
  | distance_information => [util]
  | distance_matrix => [distance_correlation; distance_information; util]
  | feature => [structural_breaks_cusumtest]
  | indicators => [indicators_bands; indicators_base; indicators_macd; indicators_rsi]
  | indicators_bands | indicators_macd | indicators_rsi => [indicators_base]
  | micro_structure => [micro_price_sequences; micro_strategic; micro_sequential]
  | micro_price_sequences | micro_sequential | micro_strategic => [indicators_base]
  | sim => [sim_bm; sim_gbm; sim_quasi_random; sim_ou]
  | sim_base => [datatypes_timeseries]
  | sim_bm | sim_gbm | sim_ou => [sim_base]
  | sim_quasi_random => [sim_base; sim_bm]
  | splits => [splits_kfoldpe; splits_walk_forward]
  | splits_base => [splits_dtypes]
  | splits_dtypes => [util_custom_types]
  | splits_kfoldpe | splits_walk_forward => [splits_base; splits_dtypes]
  | _ => []
  end.

(** sys.modules: the files whose code is running now (innermost first) and those that have finished *)
Record modules := mkModules { running : list file; done : list file }.
Definition mem (m : file) (l : list file) : bool := if in_dec file_dec m l then true else false.
Definition present (m : file) (s : modules) : bool := mem m (running s) || mem m (done s).

(** importlib: nothing to do for a file in sys.modules; else its package is loaded first (which may load the file itself), then
    the file is entered in sys.modules and executed.  A statement `from x import names` loads x and takes names from it; it
    fails (None) if x has not finished.  Simplification: Python fails only if the name is not defined yet; the model is
    stricter.  [fuel] bounds the depth; None when it is used up. *)
Fixpoint load (fuel : nat) (m : file) (s : modules) : option modules :=
  match fuel with
  | O => None
  | S f =>
      if present m s then Some s
      else
        match (match parent m with None => Some s | Some p => load f p s end) with
        | None => None
        | Some s1 =>
            if present m s1 then Some s1
            else
              match fold_left (fun acc x =>
                       match acc with
                       | None => None
                       | Some t => match load f x t with Some t' => if mem x (done t') then Some t' else None | None => None end
                       end) (imports m) (Some (mkModules (m :: running s1) (done s1))) with
              | None => None
              | Some s2 => Some (mkModules (tl (running s2)) (m :: done s2))
              end
        end
  end.
(** a program that imports the files one after the other *)
Definition load_all (fuel : nat) (ms : list file) (s : modules) : option modules :=
  fold_left (fun acc m => match acc with None => None | Some t => load fuel m t end) ms (Some s).
(** a fresh interpreter *)
Definition fresh_start : modules := mkModules [] [].
