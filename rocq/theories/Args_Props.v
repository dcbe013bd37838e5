(** Further cases of C31 (defaults), C34 (correlation values given in other forms), C50 (no eigenvalues) and C72 (unknown keywords). *)
From Coq Require Import Reals Lra String ZArith List Arith Bool Lia.
From Verif Require Import Base Num Sim_Model Sim_Spec Sim_Extra_Props.
From Verif Require Cov_Model Cov_Eig_Props Util_Model Util_Spec Util_Props.
Import ListNotations.
Open Scope nat_scope.

(** ** C31: the start value of a model that was never fitted is 0, and 100 for geometric Brownian motion *)
Theorem C31_class_defaults : forall z dt steps P ls lf columns incl k,
  (forall q, bm_path_sample (mkObj q k unfitted) z X0None dt steps P ls lf columns incl = bm_path_sample (mkObj q k unfitted) z (X0Data (DScalar (Fin 0))) dt steps P ls lf columns incl) /\
  (forall q, gbm_path_sample (mkObj q k unfitted) z X0None dt steps P ls lf columns incl = gbm_path_sample (mkObj q k unfitted) z (X0Data (DScalar (Fin 100))) dt steps P ls lf columns incl) /\
  (forall q, ou_path_sample (mkObj q k unfitted) z X0None dt steps P ls lf columns incl = ou_path_sample (mkObj q k unfitted) z (X0Data (DScalar (Fin 0))) dt steps P ls lf columns incl) /\
  (forall q, quasi_path_sample (mkObj q k unfitted) z X0None dt steps P ls lf columns incl = quasi_path_sample (mkObj q k unfitted) z (X0Data (DScalar (Fin 0))) dt steps P ls lf columns incl).
Proof. intros. repeat split; reflexivity. Qed.
Print Assumptions C31_class_defaults.
(** Anything that is no number, list, array, Series or DataFrame is refused with a ValueError: as data by every fit and score, as x0 by every path_sample. *)
Theorem C31_unusable : (forall T infer np (o : obj T) dt, snd (fit infer np o DOther dt) = Raise ValueError) /\
  (forall T infer np (o : obj T) dt, snd (nll infer np o DOther dt) = Raise ValueError) /\
  (forall st default sampler dt steps P ls lf columns incl, path_sample st default sampler (X0Data DOther) dt steps P ls lf columns incl = Raise ValueError).
Proof. repeat split; reflexivity. Qed.
Print Assumptions C31_unusable.
Example C31_class_defaults_ex : let o := mkObj (mkBM [Fin 0] [Fin 1] None None) (Fin 2) unfitted in let call x0 := gbm_path_sample o (fun _ => Fin 0) x0 (Some (Fin 1)) 3 1 None None None true in
  call X0None = call (X0Data (DScalar (Fin 100))) /\ call (X0Data DOther) = Raise ValueError.
Proof. split; [apply (proj1 (proj2 (C31_class_defaults _ _ _ _ _ _ _ _ _)))|apply (proj2 (proj2 C31_unusable))]. Qed.

(** ** C34: a one-row or one-column matrix counts as the list of its entries, a single number as a list of one; a matrix of another shape is a
    ValueError, a one-dimensional array or a Series an AssertionError *)
Theorem C34_forms :
  (forall a, nrow a = 1 -> make_cor_from_upper_tri (DNp2 a) = make_cor_from_upper_tri (DList (map (fun j => at2 a 0 j) (seq 0 (ncol a))))) /\
  (forall a, ncol a = 1 -> make_cor_from_upper_tri (DNp2 a) = make_cor_from_upper_tri (DList (map (fun i => at2 a i 0) (seq 0 (nrow a))))) /\
  (forall a, nrow a <> 1 -> ncol a <> 1 -> make_cor_from_upper_tri (DNp2 a) = Raise ValueError) /\
  (forall names ix a, make_cor_from_upper_tri (DFrame names ix a) = make_cor_from_upper_tri (DNp2 a)) /\
  (forall v, make_cor_from_upper_tri (DScalar v) = make_cor_from_upper_tri (DList [v])) /\
  (forall l name ix, make_cor_from_upper_tri (DNp1 l) = Raise AssertionError /\ make_cor_from_upper_tri (DSeries name ix l) = Raise AssertionError) /\
  make_cor_from_upper_tri DOther = Raise ValueError.
Proof.
  split; [|split; [|split; [|split; [|split; [|split]]]]]; try reflexivity.
  - intros a H. unfold make_cor_from_upper_tri, flatten. rewrite H. cbn [Nat.eqb orb seq map concat bind]. rewrite app_nil_r. reflexivity.
  - intros a H. unfold make_cor_from_upper_tri. rewrite H, orb_true_r. cbn [bind].
    assert (E : flatten a = map (fun i => at2 a i 0) (seq 0 (nrow a))).
    { unfold flatten, row. rewrite H. cbn [seq map]. induction (seq 0 (nrow a)) as [|i l IH]; [reflexivity|]. cbn [map concat app]. rewrite IH. reflexivity. }
    rewrite E. reflexivity.
  - intros a H1 H2. unfold make_cor_from_upper_tri. rewrite (proj2 (Nat.eqb_neq _ _) H1), (proj2 (Nat.eqb_neq _ _) H2). reflexivity.
  - intros. split; reflexivity.
Qed.
Print Assumptions C34_forms.
(** three values in a column give a 3 x 3 matrix *)
Example C34_forms_ex : exists m, make_cor_from_upper_tri (DNp2 (mkArr 3 1 (fun i _ => nth i [Fin 2; Fin 3; Fin 4] NaN))) = Ok m /\ nrow m = 3 /\ at2 m 0 2 = Fin 3 /\ at2 m 2 1 = Fin 4.
Proof. rewrite (proj1 (proj2 C34_forms)) by reflexivity. eexists. split; [reflexivity|]. repeat split. Qed.

(** ** C50: no eigenvalues at all *)
Theorem C50_fit_empty : forall T N, 1 <= T -> 1 <= N -> Cov_Model.mp_fit T N [] = Raise ValueError.
Proof.
  intros T N HT HN. unfold Cov_Model.mp_fit. assert (G : exists v g, Cov_Model.mp_grid = v :: g /\ (0 < v)%R).
  { unfold Cov_Model.mp_grid. change 1000 with (S 999). rewrite <- cons_seq. cbn [map]. eexists _, _. split; [reflexivity|]. cbn [INR]. lra. }
  destruct G as (v & g & -> & Hv). cbn [Cov_Model.mp_scan]. unfold Cov_Model.mp_loglik, Cov_Model.mp_pdf, Cov_Model.mp_support.
  assert (R0 : rleb v 0 = false) by (unfold rleb; destruct (Rle_dec v 0); [lra|reflexivity]). rewrite R0.
  rewrite (proj2 (Nat.eqb_neq N 0)), (proj2 (Nat.eqb_neq T 0)) by lia. cbn [bind]. reflexivity.
Qed.
Print Assumptions C50_fit_empty.

(** ** C72: gap_statistic and mutual_info have no catch-all parameter: a keyword they do not know is a TypeError, whatever the other arguments are *)
Theorem C72_unknown_keyword : forall B (func : Util_Model.pyfun B) args kwargs k,
  In k (map fst kwargs) ->
  (~ In k ["dist"; "labels"; "nb"; "random_state"]%string -> Util_Model.decorated_gap_statistic func args kwargs = Raise TypeError) /\
  (~ In k ["x"; "y"; "bins"; "norm"]%string -> Util_Model.decorated_mutual_info func args kwargs = Raise TypeError).
Proof.
  assert (BK : forall (sig : Util_Model.signature) kwargs (bound : list (string * Util_Model.arg)) k, Util_Model.varkw sig = false -> In k (map fst kwargs) -> ~ In k (Util_Model.params sig) -> Util_Model.bind_keywords sig bound kwargs = Raise TypeError).
  { intros sig kwargs. induction kwargs as [|[k0 v] t IH]; intros bound k Hv Hin Hk; [destruct Hin|]. cbn [Util_Model.bind_keywords].
    destruct (Util_Model.mem k0 (Util_Model.params sig)) eqn:M.
    - destruct (Util_Model.lookup k0 bound); [reflexivity|]. apply (IH _ k); auto. destruct Hin as [<-|]; [|assumption]. exfalso. apply Hk. unfold Util_Model.mem in M. apply existsb_exists in M as (y & Hy & E). apply String.eqb_eq in E. subst y. exact Hy.
    - rewrite Hv. reflexivity. }
  intros B func args kwargs k Hin. split; intros Hk.
  - unfold Util_Model.decorated_gap_statistic, Util_Model.validate_series_or_1darray, Util_Model.bind_partial. destruct (Nat.ltb _ _); [reflexivity|]. rewrite (BK Util_Model.gap_statistic_sig _ _ k eq_refl Hin Hk). reflexivity.
  - unfold Util_Model.decorated_mutual_info, Util_Model.validate_series_or_1darray, Util_Model.bind_partial. destruct (Nat.ltb _ _); [reflexivity|]. rewrite (BK Util_Model.mutual_info_sig _ _ k eq_refl Hin Hk). reflexivity.
Qed.
Print Assumptions C72_unknown_keyword.
Example C72_unknown_keyword_ex : Util_Model.decorated_mutual_info (fun _ _ => Ok tt) [] [("bin"%string, Util_Model.ANone)] = Raise TypeError.
Proof. apply (C72_unknown_keyword unit _ _ _ "bin"%string); [left; reflexivity|]. cbn. intuition discriminate. Qed.
