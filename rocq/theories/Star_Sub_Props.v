(** C126: importing modules by name, and which imports fail. *)
From Coq Require Import String Ascii List Bool.
From Verif Require Import Base Star_Model Star_Spec Star_Props.
Import ListNotations.
Open Scope string_scope.

Lemma existsb_name : forall n l, existsb (String.eqb n) l = true <-> In n l.
Proof.
  intros n l. rewrite existsb_exists. split.
  - intros (x & Hx & E). apply String.eqb_eq in E. subst x. exact Hx.
  - intros H. exists n. split; [exact H|apply String.eqb_refl].
Qed.
Lemma attr_known : forall p n, In n (map fst (attributes p [])) -> (exists m, public p n m) \/ In n (submodules p).
Proof.
  intros p n I. destruct p; cbn in I;
      repeat (destruct I as [<-|I]; [first [right; cbn; tauto
        | left; eexists; solve [constructor; cbn; tauto | apply (in_prices "becker_parkinson_volatility"); cbn; tauto | apply (in_prices "close_close_volatility"); cbn; tauto
            | apply (in_prices "cowrin_schultz_spread"); cbn; tauto | apply (in_prices "edge_spread"); cbn; tauto | apply (in_prices "garman_klass_volatility"); cbn; tauto
            | apply (in_prices "high_low_volatility"); cbn; tauto | apply (in_prices "rogers_satchell_volatility"); cbn; tauto | apply (in_prices "roll_impact"); cbn; tauto
            | apply (in_prices "roll_measure"); cbn; tauto | apply (in_prices "yang_zhang_volatility"); cbn; tauto
            | apply (in_strategic "amihud"); cbn; tauto | apply (in_strategic "hasbrouck"); cbn; tauto | apply (in_strategic "kyle"); cbn; tauto
            | apply (in_corr "abs_angular"); cbn; tauto | apply (in_corr "angular"); cbn; tauto | apply (in_corr "squared_angular"); cbn; tauto
            | apply (in_pair "abs_angular"); cbn; tauto | apply (in_pair "angular"); cbn; tauto | apply (in_pair "squared_angular"); cbn; tauto
            | apply (in_matrix "corr"); cbn; tauto | apply (in_matrix "info"); cbn; tauto
            | apply (in_data "equity_indices"); cbn; tauto | apply (in_data "treasury_rates"); cbn; tauto | apply (in_data "vix"); cbn; tauto]]|]); try contradiction.
Qed.
Lemma attr_none : forall p n, ~ In n (map fst (attributes p [])) -> getattr (attributes p []) n = None.
Proof.
  intros p n. unfold getattr. generalize (attributes p []). induction l as [|[k o] t IH]; intros H; [reflexivity|]. cbn [fold_left fst snd].
  destruct (String.eqb_spec k n) as [->|N]; [exfalso; apply H; left; reflexivity|]. apply IH. intros X; apply H; right; exact X.
Qed.
Lemma attr_module : forall p n, In n (submodules p) -> getattr (attributes p []) n = Some (Module n) \/ getattr (attributes p []) n = None.
Proof. intros p n I. destruct p; cbn in I; repeat (destruct I as [<-|I]; [vm_compute; auto|]); contradiction. Qed.
Lemma getattr_imported : forall p extra n, In n extra -> getattr (attributes p extra) n = Some (Module n).
Proof.
  intros p extra n X. unfold getattr, attributes. rewrite fold_left_app.
  generalize (fold_left (fun acc b => if String.eqb (fst b) n then Some (snd b) else acc) (flat_map run_statement (statements p)) None).
  induction extra as [|k t IH]; intros acc; [destruct X|]. cbn [map fold_left fst snd].
  destruct (in_dec string_dec n t) as [Y|Y]; [apply IH; exact Y|]. destruct X as [->|X]; [|contradiction]. rewrite String.eqb_refl.
  apply (last_extra t n (Some (Module n)) Y).
Qed.

(** Importing a module of the package by its name gives that module and binds nothing else, whether or not it has been
    imported before. *)
Theorem C126_module : forall p n extra ns, In n (submodules p) ->
  exists ns', from_import p extra n ns = Some ns' /\ ns' n = Some (Module n) /\ forall k, k <> n -> ns' k = ns k.
Proof.
  intros p n extra ns H. exists (bind_name ns n (Module n)). split.
  - unfold from_import. destruct (in_dec string_dec n extra) as [X|X]; [rewrite (getattr_imported p extra n X); reflexivity|].
    rewrite getattr_extra by exact X. destruct (attr_module p n H) as [-> | ->]; [reflexivity|].
    rewrite (proj2 (existsb_name n (submodules p)) H). reflexivity.
  - unfold bind_name. rewrite String.eqb_refl. split; [reflexivity|]. intros k Hk. destruct (String.eqb_spec k n); [contradiction|reflexivity].
Qed.
Print Assumptions C126_module.

(** Every other name is an ImportError. *)
Theorem C126_unknown : forall p n extra ns, besides p extra ->
  (from_import p extra n ns = None <-> ~ (exists m, public p n m) /\ ~ In n (submodules p)).
Proof.
  intros p n extra ns B. split.
  - intros E. split.
    + intros [m P]. destruct (C126_by_name p n m extra ns P B) as (ns' & E' & _). congruence.
    + intros I. destruct (C126_module p n extra ns I) as (ns' & E' & _). congruence.
  - intros [NP NS]. unfold from_import. rewrite getattr_extra by (intros X; apply NS, B, X).
    rewrite attr_none by (intros X; destruct (attr_known p n X); contradiction).
    destruct (existsb (String.eqb n) (submodules p)) eqn:E; [apply existsb_name in E; contradiction|reflexivity].
Qed.
Print Assumptions C126_unknown.
Example C126_module_example :
  (exists ns', from_import Splits [] "combinatorial_cv" (fun _ => None) = Some ns' /\ ns' "combinatorial_cv" = Some (Module "combinatorial_cv")) /\
  from_import Splits ["_base"] "BaseTimeSeriesSplit" (fun _ => None) = None.
Proof. split; [eexists; split; reflexivity|reflexivity]. Qed.
