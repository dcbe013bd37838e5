(** What is public: the name a user imports, and the file that defines it. *)
From Coq Require Import String List.
From Verif Require Import Base Star_Model.
Import ListNotations.
Open Scope string_scope.

Inductive public : package -> string -> string -> Prop :=
| in_bm : public Sim "BrownianMotion" "_bm" | in_gbm : public Sim "GeometricBrownianMotion" "_gbm"
| in_ou : public Sim "OrnsteinUhlenbeck" "_ou" | in_quasi : public Sim "QuasiRandom" "_quasi_random"
| in_fs : public Util "get_project_root" "_fs_utils" | in_log : forall n, In n ["configure_logger"; "logger"] -> public Util n "_logging"
| in_validate : forall n, In n ["validate_series_or_1Darray"; "validate_frame_or_2Darray"] -> public Util n "_validate"
| in_types : forall n, In n ["to_numpy"; "SeriesOrArray"; "DataFrameOrArray"; "ArrayLike"] -> public Util n "_dtypes"
| in_hierarchical : forall n, In n ["HC"; "optimize_n_clusters"] -> public Clustering n "hierarchical"
| in_metrics : forall n, In n ["gap_statistic"; "silhouette_tstat"] -> public Clustering n "metrics"
| in_cusum : public Feature "chu_stinchcombe_white_cusum_test" "structural_breaks.cusumtest"
| in_bands : forall n, In n ["BollingerBands"; "DonchianBands"; "EwmBollingerBands"; "GenericBands"; "KeltnerBands"] -> public Indicators n "_bands"
| in_averages : forall n, In n ["average_true_range"; "ewm_mean"; "ewm_mom"; "ewm_std"; "rolling_max"; "rolling_mean"; "rolling_min"; "rolling_mom"; "rolling_std"] ->
    public Indicators n "_base"
| in_macd : forall n, In n ["macd"; "macd_signal"] -> public Indicators n "_macd"
| in_rsi : forall n, In n ["ewm_rsi"; "rsi"] -> public Indicators n "_rsi"
| in_prices : forall n, In n ["becker_parkinson_volatility"; "close_close_volatility"; "cowrin_schultz_spread"; "edge_spread"; "garman_klass_volatility"; "high_low_volatility";
    "rogers_satchell_volatility"; "roll_impact"; "roll_measure"; "yang_zhang_volatility"] -> public MicroStructure ("get_" ++ n) "_price_sequences"
| in_strategic : forall n, In n ["amihud"; "hasbrouck"; "kyle"] -> public MicroStructure ("get_" ++ n ++ "_lambda") "_strategic_trade_models"
| in_sequential : forall n, In n ["estimate_buy_volume"; "get_vpin"] -> public MicroStructure n "_sequential_trade_models"
| in_corr : forall n, In n ["abs_angular"; "angular"; "squared_angular"] -> public Distance ("corr_to_" ++ n ++ "_dist") "correlation"
| in_pair : forall n, In n ["abs_angular"; "angular"; "squared_angular"] -> public Distance ("pair_" ++ n ++ "_distance") "correlation"
| in_information : forall n, In n ["compute_entropies"; "kl_divergence_xy"; "mutual_info"; "var_info"] -> public Distance n "information"
| in_divergence : forall n, In n ["log_det_divergence"; "von_neuman_divergence"] -> public Distance n "matrix_divergence"
| in_matrix : forall n, In n ["corr"; "info"] -> public Distance ("get_" ++ n ++ "_distance_matrix") "distance_matrix"
| in_data : forall n, In n ["equity_indices"; "treasury_rates"; "vix"] -> public Datasets ("load_" ++ n) "_dataloader"
| in_kfold : public Splits "TimeAwareKFold" "kfoldpe" | in_walk : public Splits "WalkForward" "walk_forward".

(** the program has imported some of the package's own modules besides *)
Definition besides (p : package) (extra : list string) : Prop := incl extra (submodules p).
