(** Vocabulary of the statements about histories of a model object. *)
From Coq Require Import Reals List ZArith String.
From Verif Require Import Base Num Sim_Model Hist_Model.
Import ListNotations.

(** the three classes with a fit method *)
Inductive model_class (chol : arr2 -> res arr2) (mvn : mvn_nll) : forall P, kind P -> Prop :=
| is_bm : model_class chol mvn bmpar (bm_kind chol mvn)
| is_gbm : model_class chol mvn bmpar (gbm_kind chol mvn)
| is_ou : model_class chol mvn oupar (ou_kind chol mvn).

Definition is_fit (c : call) : bool := match c with CFit _ _ => true | _ => false end.
Definition is_sample (c : call) : bool := match c with CSample _ _ _ _ _ _ _ _ _ => true | _ => false end.
Definition is_criterion (c : call) : bool := match c with CAic _ _ | CBic _ _ => true | _ => false end.

(** the object after a history, its parameters, and the answer to one more call *)
Definition after {P} infer (K : kind P) (o : obj P) (cs : list call) : obj P := fst (history infer K o cs).
Definition asked {P} infer (K : kind P) (o : obj P) (cs : list call) (c : call) : res answer := snd (perform infer K (after infer K o cs) c).
(** every fit call of the history [cs], which starts with object [o], raises *)
Definition fits_raise {P} infer (K : kind P) (o : obj P) (cs : list call) : Prop :=
  forall i x dt, nth_error cs i = Some (CFit x dt) -> exists e, nth_error (snd (history infer K o cs)) i = Some (Raise e).
(** every fit call of the history succeeds *)
Definition fits_succeed {P} infer (K : kind P) (o : obj P) (cs : list call) : Prop :=
  forall i x dt, nth_error cs i = Some (CFit x dt) -> nth_error (snd (history infer K o cs)) i = Some (Ok Fitted).
(** the data can be read: a table of at least one row comes out of it, and a time step *)
Definition readable (infer : list Z -> res (option string)) (x : sdata) (dt : option num) : Prop :=
  exists ix v, index_info infer x = Ok ix /\ to_numpy2 x = Ok v /\ nrow v <> 0%nat
    /\ match dt, ix_freq ix with None, Some f => freq_to_duration f <> None | _, _ => True end.
(** the factor used by path_sample is the one of the correlation matrix used by nll *)
Definition factor_matches (chol : arr2 -> res arr2) (cor L : option arr2) : Prop :=
  match cor, L with
  | None, None => True
  | Some c, Some l => chol c = Ok l
  | _, _ => False
  end.
