(** C126: import statements. *)
From Coq Require Import String Ascii List Bool.
From Verif Require Import Base Star_Model Star_Spec.
Import ListNotations.
Open Scope string_scope.

Definition last_of (acc : option object) (l : list (string * object)) (n : string) : option object :=
  fold_left (fun acc b => if String.eqb (fst b) n then Some (snd b) else acc) l acc.
Lemma last_extra : forall extra n acc, ~ In n extra -> last_of acc (map (fun m => (m, Module m)) extra) n = acc.
Proof.
  induction extra as [|m t IH]; intros n acc H; [reflexivity|]. cbn [map]. unfold last_of. cbn [fold_left fst snd].
  destruct (String.eqb_spec m n) as [->|N]; [exfalso; apply H; left; reflexivity|]. apply IH. intros Hn; apply H; right; exact Hn.
Qed.
Lemma getattr_extra : forall p extra n, ~ In n extra -> getattr (attributes p extra) n = getattr (attributes p []) n.
Proof.
  intros p extra n H. unfold getattr, attributes. rewrite !fold_left_app. cbn [map fold_left]. apply (last_extra extra n _ H).
Qed.
Ltac each H := repeat (destruct H as [<-|H]); [..|destruct H].
Lemma public_attr : forall p n m, public p n m -> getattr (attributes p []) n = Some (Object m n) /\ ~ In n (submodules p) /\ private n = false.
Proof.
  intros p n m H; destruct H; try (each H);
    (split; [vm_compute; reflexivity|]); (split; [cbn; intros X; repeat (destruct X as [X|X]; [discriminate X|]); exact X|reflexivity]).
Qed.
Lemma star_loop : forall l ns n,
  fold_left (fun ns b => if private (fst b) then ns else bind_name ns (fst b) (snd b)) l ns n =
  if private n then ns n else last_of (ns n) l n.
Proof.
  induction l as [|[m o] t IH]; intros ns n; cbn [fold_left]; [unfold last_of; cbn; destruct (private n); reflexivity|].
  rewrite IH. unfold last_of; cbn [fold_left fst snd]. destruct (private n) eqn:En.
  - destruct (private m) eqn:Em; [reflexivity|]. unfold bind_name. destruct (String.eqb_spec n m) as [->|]; [congruence|reflexivity].
  - destruct (String.eqb_spec m n) as [->|N].
    + rewrite En. unfold bind_name. rewrite String.eqb_refl. reflexivity.
    + destruct (private m); [reflexivity|]. unfold bind_name. destruct (String.eqb_spec n m) as [E|_]; [congruence|reflexivity].
Qed.
Lemma last_acc : forall l acc n, last_of acc l n = match last_of None l n with Some o => Some o | None => acc end.
Proof.
  induction l as [|[m o] t IH]; intros acc n; [reflexivity|]. unfold last_of; cbn [fold_left fst snd]. fold (last_of (if String.eqb m n then Some o else acc) t n).
  fold (last_of (if String.eqb m n then Some o else None) t n). rewrite (IH (if String.eqb m n then Some o else acc)), (IH (if String.eqb m n then Some o else None)).
  destruct (last_of None t n); [reflexivity|]. destruct (String.eqb m n); reflexivity.
Qed.

(** Importing a public name from its package gives the object of the file that defines it, and binds nothing else, whatever
    else has been imported. *)
Theorem C126_by_name : forall p n m extra ns, public p n m -> besides p extra ->
  exists ns', from_import p extra n ns = Some ns' /\ ns' n = Some (Object m n) /\ forall k, k <> n -> ns' k = ns k.
Proof.
  intros p n m extra ns H B. destruct (public_attr p n m H) as (G & S & _). unfold from_import.
  rewrite getattr_extra by (intros Hn; apply S, B, Hn). rewrite G. eexists; split; [reflexivity|]. unfold bind_name. split.
  - rewrite String.eqb_refl; reflexivity.
  - intros k Hk. destruct (String.eqb_spec k n); [contradiction|reflexivity].
Qed.
Print Assumptions C126_by_name.

(** The star import of sim and of util always fails, with TypeError, and binds nothing: their __all__ lists objects in place
    of names. *)
Theorem C126_star_refuted : forall p extra ns, p = Sim \/ p = Util -> star_import p extra ns = (ns, Raise TypeError).
Proof. intros p extra ns [->| ->]; reflexivity. Qed.
Print Assumptions C126_star_refuted.

(** In the other packages it succeeds and binds every public name to its object; names with a leading underscore and names the
    package does not have are kept. *)
Theorem C126_star : forall p extra ns, p <> Sim -> p <> Util -> besides p extra ->
  exists ns', star_import p extra ns = (ns', Ok tt) /\
    (forall n m, public p n m -> ns' n = Some (Object m n)) /\
    (forall n, ns' n <> ns n -> private n = false /\ ((exists m, public p n m) \/ In n (submodules p))) /\
    (* a module that has been imported is bound, too, unless its name begins with an underscore *)
    (forall n, In n extra -> private n = false -> ns' n = Some (Module n)).
Proof.
  intros p extra ns H1 H2 B.
  assert (E : star_import p extra ns = (fold_left (fun ns b => if private (fst b) then ns else bind_name ns (fst b) (snd b)) (attributes p extra) ns, Ok tt))
    by (unfold star_import; destruct p; try reflexivity; contradiction).
  rewrite E. eexists; split; [reflexivity|]. split; [|split].
  - intros n m P. destruct (public_attr p n m P) as (G & S & V). rewrite star_loop, V, last_acc.
    change (last_of None (attributes p extra) n) with (getattr (attributes p extra) n). rewrite getattr_extra by (intros Hn; apply S, B, Hn). rewrite G. reflexivity.
  - intros n D. rewrite star_loop in D. destruct (private n); [contradiction|]. split; [reflexivity|]. rewrite last_acc in D.
    change (last_of None (attributes p extra) n) with (getattr (attributes p extra) n) in D.
    destruct (in_dec string_dec n extra) as [X|X]; [right; apply B, X|]. rewrite getattr_extra in D by exact X.
    assert (K : forall l, last_of None l n <> None -> In n (map fst l)).
    { induction l as [|[k o] t IH]; intros Hl; [contradiction|]. unfold last_of in Hl; cbn [fold_left fst snd] in Hl. cbn [map fst].
      destruct (String.eqb_spec k n) as [->|N]; [left; reflexivity|right; apply IH; exact Hl]. }
    assert (I : In n (map fst (attributes p []))).
    { apply K. change (last_of None (attributes p []) n) with (getattr (attributes p []) n). destruct (getattr (attributes p []) n); [discriminate|contradiction]. }
    clear - I H1 H2. destruct p; try contradiction; cbn in I;
      repeat (destruct I as [<-|I]; [first [right; cbn; tauto
        | left; eexists; solve [constructor; cbn; tauto | apply (in_prices "becker_parkinson_volatility"); cbn; tauto | apply (in_prices "close_close_volatility"); cbn; tauto
            | apply (in_prices "cowrin_schultz_spread"); cbn; tauto | apply (in_prices "edge_spread"); cbn; tauto | apply (in_prices "garman_klass_volatility"); cbn; tauto
            | apply (in_prices "high_low_volatility"); cbn; tauto | apply (in_prices "rogers_satchell_volatility"); cbn; tauto | apply (in_prices "roll_impact"); cbn; tauto
            | apply (in_prices "roll_measure"); cbn; tauto | apply (in_prices "yang_zhang_volatility"); cbn; tauto
            | apply (in_strategic "amihud"); cbn; tauto | apply (in_strategic "hasbrouck"); cbn; tauto | apply (in_strategic "kyle"); cbn; tauto
            | apply (in_corr "abs_angular"); cbn; tauto | apply (in_corr "angular"); cbn; tauto | apply (in_corr "squared_angular"); cbn; tauto
            | apply (in_pair "abs_angular"); cbn; tauto | apply (in_pair "angular"); cbn; tauto | apply (in_pair "squared_angular"); cbn; tauto
            | apply (in_matrix "corr"); cbn; tauto | apply (in_matrix "info"); cbn; tauto
            | apply (in_data "equity_indices"); cbn; tauto | apply (in_data "treasury_rates"); cbn; tauto | apply (in_data "vix"); cbn; tauto]]|]); try contradiction.
  - intros n X V. rewrite star_loop, V. unfold last_of, attributes. rewrite fold_left_app.
    generalize (fold_left (fun acc b => if String.eqb (fst b) n then Some (snd b) else acc) (flat_map run_statement (statements p)) (ns n)).
    clear B E. induction extra as [|k t IH]; intros acc; [destruct X|]. cbn [map fold_left fst snd].
    destruct (in_dec string_dec n t) as [Y|Y]; [apply IH; exact Y|]. destruct X as [->|X]; [|contradiction]. rewrite String.eqb_refl.
    apply (last_extra t n (Some (Module n)) Y).
Qed.
Print Assumptions C126_star.

(** So a variable of the user called like a module of the package is overwritten: `metrics` by the star import of clustering. *)
Theorem C126_star_shadows_refuted : forall extra ns, besides Clustering extra -> exists ns', star_import Clustering extra ns = (ns', Ok tt) /\
  ns' "metrics" = Some (Module "metrics").
Proof.
  intros extra ns B. eexists; split; [reflexivity|]. rewrite star_loop. cbn [private]. unfold last_of, attributes. rewrite fold_left_app. cbn.
  assert (L : forall l, fold_left (fun acc b => if String.eqb (fst b) "metrics" then Some (snd b) else acc) (map (fun n => (n, Module n)) l) (Some (Module "metrics")) = Some (Module "metrics")).
  { induction l as [|k t IH]; [reflexivity|]. cbn [map fold_left fst snd]. destruct (String.eqb_spec k "metrics") as [->|]; exact IH. }
  apply L.
Qed.
Print Assumptions C126_star_shadows_refuted.
Example C126_example :
  let ns : names := fun n => if String.eqb n "walk_forward" then Some (Object "notebook" "walk_forward") else None in
  let ns' := fst (star_import Splits ["_base"; "combinatorial_cv"] ns) in
  besides Splits ["_base"; "combinatorial_cv"] /\ ns' "WalkForward" = Some (Object "walk_forward" "WalkForward") /\
  ns' "walk_forward" = Some (Module "walk_forward") /\ ns' "combinatorial_cv" = Some (Module "combinatorial_cv") /\ ns' "_base" = None.
Proof. cbn. split; [intros x [<-|[<-|[]]]; cbn; tauto|repeat split]. Qed.
