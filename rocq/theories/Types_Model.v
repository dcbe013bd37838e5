(** The remaining declared types of the splitters, train_test_split/_dtypes.py.  The unions themselves are pydantic's and
    are not modelled: each arm is one validator. *)
From Coq Require Import String List Arith ZArith.
From Verif Require Import Base Num Sim_Model Dist_Model Util_Model.
Import ListNotations.

(** _dtypes.py 17-21 YTypeArray: the integer and the boolean arm ([y_float_array] is the middle one).  np.int_ is 64 bits
    wide, as on the platforms of [index_type]. *)
Definition y_int_array := validate_numpy_array (AShape [EAny]) (Some (DInt 64)).
Definition y_bool_array := validate_numpy_array (AShape [EAny]) (Some DBool).
(** _dtypes.py 22-26 YTypeSeries, its three arms *)
Definition y_int_series := validate_series (Some (DInt 64)) EAny.
Definition y_float_series := validate_series (Some (DFloat 64)) EAny.
Definition y_bool_series := validate_series (Some DBool) EAny.
(** _dtypes.py 29-33 GroupType, its three arms; the third is declared for a DatetimeIndex and validated as a Series *)
Definition group_array := validate_numpy_array (AShape [EAny]) (Some (DInt 64)).
Definition group_series := validate_series (Some (DInt 64)) EAny.
Definition group_datetime_index := validate_series None EAny.
