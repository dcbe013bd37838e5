(** Histories of one model object: any sequence of the calls fit, nll, aic, bic and path_sample on it (quantfinlib/sim/_base.py 335-478).
    Calls that raise are part of a history: the exception is caught by the caller and the object is used again as it was left. *)
From Coq Require Import Reals String ZArith List.
From Verif Require Import Base Num Sim_Model.
Import ListNotations.

(** What a class supplies to its base classes: _fit_np, _nll, _path_sample_np and the default x0 (_base.py 141-153, 395, 420). *)
Record kind (P : Type) := mkKind {
  k_fit : P -> arr2 -> num -> P * res unit;
  k_nll : P -> arr2 -> num -> res num;
  k_path : P -> noise -> list num -> num -> nat -> nat -> res arr2;
  k_x0 : num }.
Arguments mkKind {P}. Arguments k_fit {P}. Arguments k_nll {P}. Arguments k_path {P}. Arguments k_x0 {P}.

(** BrownianMotion (_bm.py 130-231), GeometricBrownianMotion (_gbm.py 135-243), OrnsteinUhlenbeck (_ou.py 160-306). *)
Definition bm_kind (chol : arr2 -> res arr2) (mvn : mvn_nll) : kind bmpar := mkKind (bm_fit_np chol) (bm_nll_np mvn) bm_path_np (Fin 0).
Definition gbm_kind (chol : arr2 -> res arr2) (mvn : mvn_nll) : kind bmpar := mkKind (gbm_fit_np chol) (gbm_nll_np mvn) gbm_path_np (Fin 100).
Definition ou_kind (chol : arr2 -> res arr2) (mvn : mvn_nll) : kind oupar := mkKind (ou_fit_np chol) (ou_nll_np mvn) ou_path_np (Fin 0).

(** A call with its arguments; [z] is the noise stream of the random_state given to path_sample. *)
Inductive call :=
| CFit (x : sdata) (dt : option num)
| CNll (x : sdata) (dt : option num)
| CAic (x : sdata) (dt : option num)
| CBic (x : sdata) (dt : option num)
| CSample (z : noise) (x0 : x0arg) (dt : option num) (num_steps num_paths : nat) (label_start : option Z) (label_freq : option string)
          (columns : option (list string)) (include_x0 : bool).
(** What a call returns. *)
Inductive answer := Fitted | Score (v : num) | Paths (o : output).

(** One call: _base.py 397-417 fit, 422-439 nll, 441-459 aic, 461-478 bic, 335-391 path_sample (which assigns no attribute). *)
Definition perform {P} (infer : list Z -> res (option string)) (K : kind P) (o : obj P) (c : call) : obj P * res answer :=
  match c with
  | CFit x dt => let '(o', r) := fit infer (k_fit K) o x dt in (o', _ <- r ;; Ok Fitted)
  | CNll x dt => let '(o', r) := nll infer (k_nll K) o x dt in (o', v <- r ;; Ok (Score v))
  | CAic x dt => let '(o', r) := aic infer (k_nll K) o x dt in (o', v <- r ;; Ok (Score v))
  | CBic x dt => let '(o', r) := bic infer (k_nll K) o x dt in (o', v <- r ;; Ok (Score v))
  | CSample z x0 dt steps paths ls lf columns incl =>
      (o, out <- path_sample (o_fit o) (k_x0 K) (k_path K (o_par o) z) x0 dt steps paths ls lf columns incl ;; Ok (Paths out))
  end.

(** The object after a sequence of calls, and the answers. *)
Fixpoint history {P} (infer : list Z -> res (option string)) (K : kind P) (o : obj P) (cs : list call) : obj P * list (res answer) :=
  match cs with
  | [] => (o, [])
  | c :: t => let '(o1, a) := perform infer K o c in
              let '(o2, l) := history infer K o1 t in (o2, a :: l)
  end.
