(** C127: the modules load in every order. *)
From Coq Require Import List Bool Arith Lia.
From Verif Require Import Base Load_Model Load_Spec.
Import ListNotations.

(** a file imports only files of lower rank *)
Definition rank (m : file) : nat :=
  match m with
  | quantfinlib => 0
  | util => 3 | util_validate => 2 | util_custom_types | util_dtypes | util_fs_utils | util_logging => 1
  | datatypes => 1 | datatypes_timeseries => 2 | math => 1 | math_cov => 1
  | clustering => 9 | clustering_hierarchical => 8 | clustering_metrics => 7
  | datasets => 5 | datasets_dataloader => 4
  | distance => 6 | distance_matrix => 5 | distance_correlation | distance_information | distance_matrix_divergence => 4
  | feature => 6 | structural_breaks => 1 | structural_breaks_cusumtest => 1
  | indicators => 3 | indicators_base => 1 | indicators_bands | indicators_macd | indicators_rsi => 2
  | micro_structure => 5 | micro_price_sequences | micro_sequential | micro_strategic => 4
  | sim => 7 | sim_base => 4 | sim_bm | sim_gbm | sim_ou => 5 | sim_quasi_random => 6
  | splits => 7 | splits_dtypes => 4 | splits_base => 5 | splits_kfoldpe | splits_walk_forward => 6 | splits_combinatorial_cv => 1
  end.
Inductive above : file -> file -> Prop :=
| above_parent : forall m p, parent m = Some p -> above p m
| above_step : forall a m p, parent m = Some p -> above a p -> above a m.
Definition aboves (m : file) : list file :=
  match parent m with
  | None => []
  | Some p => p :: match parent p with None => [] | Some q => q :: match parent q with None => [] | Some r => [r] end end
  end.
Lemma above_in : forall a m, above a m -> In a (aboves m).
Proof.
  intros a m H; induction H as [m p H|a m p H _ IH]; [destruct m; cbn in H; try discriminate; injection H as <-; cbn; auto|].
  destruct m; cbn in H; try discriminate; injection H as <-; cbn in IH |- *; intuition.
Qed.
Lemma in_above : forall a m, In a (aboves m) -> above a m.
Proof.
  intros a m H. unfold aboves in H. destruct (parent m) as [p|] eqn:E1; [|destruct H]. destruct H as [<-|H]; [apply above_parent; exact E1|].
  apply (above_step _ _ p E1). destruct (parent p) as [q|] eqn:E2; [|destruct H]. destruct H as [<-|H]; [apply above_parent; exact E2|].
  apply (above_step _ _ q E2). destruct (parent q) as [r|] eqn:E3; [|destruct H]. destruct H as [<-|[]]. apply above_parent; exact E3.
Qed.
Lemma import_rank : forall m x, In x (imports m) -> rank x < rank m.
Proof. intros m x H; destruct m; cbn in H; repeat (destruct H as [<-|H]; [cbn; lia|]); destruct H. Qed.
Lemma import_above : forall m x a, In x (imports m) -> above a x -> rank a < rank m \/ a = m \/ above a m.
Proof.
  intros m x a H A. apply above_in in A. assert (K : rank a < rank m \/ a = m \/ In a (aboves m)); [|destruct K as [K|[K|K]]; auto using in_above].
  destruct m; cbn in H; repeat (destruct H as [<-|H]; [cbn in A; repeat (destruct A as [<-|A]; [cbn; solve [left; lia | right; left; reflexivity | right; right; tauto]|]); destruct A|]); destruct H.
Qed.
Lemma rank_bound : forall m, rank m < 10. Proof. intros m; destruct m; cbn; lia. Qed.
Definition height (m : file) : nat := length (aboves m).
Lemma height_parent : forall m p, parent m = Some p -> height p < height m.
Proof. intros m p H; destruct m; cbn in H; try discriminate; injection H as <-; cbn; lia. Qed.

Lemma mem_In : forall m l, mem m l = true <-> In m l.
Proof. intros m l; unfold mem; destruct (in_dec file_dec m l); split; intros; auto; discriminate. Qed.
Lemma present_In : forall m s, present m s = true <-> In m (running s) \/ In m (done s).
Proof. intros m s; unfold present; rewrite orb_true_iff, !mem_In; reflexivity. Qed.
Lemma present_false : forall m s, present m s = false <-> ~ In m (running s) /\ ~ In m (done s).
Proof. intros m s; destruct (present m s) eqn:E; split; intros H; try discriminate; [apply present_In in E; tauto| |reflexivity].
  split; intros X; assert (present m s = true) by (apply present_In; auto); congruence. Qed.

(** packages are entered before their files; what has finished has all it imports *)
Definition ordered (s : modules) : Prop :=
  (forall m p, present m s = true -> parent m = Some p -> present p s = true) /\ (forall m x, In m (done s) -> In x (imports m) -> In x (done s)).
Lemma ordered_above : forall s, ordered s -> forall a m, above a m -> present m s = true -> present a s = true.
Proof. intros s [H _] a m A; induction A as [m p E|a m p E _ IH]; intros P; eauto. Qed.

Definition loads (n : nat) (m : file) (s : modules) : Prop :=
  exists s' f0, (forall f, f0 <= f -> load f m s = Some s') /\ ordered s' /\ running s' = running s /\ incl (done s) (done s') /\ In m (done s').
Lemma loads_all : forall n h m s, height m < h -> rank m < n -> (forall a, above a m -> present a s = false -> rank a < n) -> ordered s ->
  (forall r, In r (running s) -> n <= rank r) -> loads n m s.
Proof.
  induction n as [n IHn] using lt_wf_ind. induction h as [|h IHh]; intros m s Hh Hr Ha Ho Hrun; [lia|].
  destruct (present m s) eqn:Em.
  - exists s, 1. assert (Dm : In m (done s)) by (apply present_In in Em as [X|X]; [apply Hrun in X; lia|exact X]).
    split; [intros [|f] Hf; [lia|]; cbn [load]; rewrite Em; reflexivity|]. auto using incl_refl.
  - (* the package *)
    assert (P : exists s1 f1, (forall f, f1 <= f -> (match parent m with None => Some s | Some p => load f p s end) = Some s1) /\ ordered s1 /\ running s1 = running s /\
                 incl (done s) (done s1) /\ (forall p, parent m = Some p -> present p s1 = true)).
    { destruct (parent m) as [p|] eqn:Ep; [|exists s, 0; repeat split; auto using incl_refl; try apply Ho; discriminate].
      destruct (present p s) eqn:Pp.
      - exists s, 1. split; [intros [|f] Hf; [lia|]; cbn [load]; rewrite Pp; reflexivity|]. repeat split; auto using incl_refl; try apply Ho. intros q Eq; congruence.
      - destruct (IHh p s) as (s1 & f1 & L & O1 & R1 & I1 & D1); auto.
        + pose proof (height_parent m p Ep); lia.
        + apply Ha; [apply above_parent; exact Ep|exact Pp].
        + intros a A. apply Ha. apply (above_step _ _ p Ep A).
        + exists s1, f1. repeat split; auto; try apply O1. intros q Eq. assert (q = p) by congruence; subst. apply present_In; auto. }
    destruct P as (s1 & f1 & L1 & O1 & R1 & I1 & P1).
    destruct (present m s1) eqn:Em1.
    { exists s1, (S f1). assert (Dm : In m (done s1)) by (apply present_In in Em1 as [X|X]; [rewrite R1 in X; apply Hrun in X; lia|exact X]).
      split; [intros [|f] Hf; [lia|]; cbn [load]; rewrite Em, L1 by lia; rewrite Em1; reflexivity|]. auto. }
    (* its statements *)
    set (body := fun f acc x => match acc with None => None | Some t => match load f x t with Some t' => if mem x (done t') then Some t' else None | None => None end end).
    assert (B : forall l t, incl l (imports m) -> ordered t -> running t = m :: running s1 -> incl (done s1) (done t) ->
              exists t' f2, (forall f, f2 <= f -> fold_left (body f) l (Some t) = Some t') /\ ordered t' /\ running t' = m :: running s1 /\ incl (done t) (done t') /\ incl l (done t')).
    { induction l as [|x l IHl]; intros t Il Ot Rt It.
      - exists t, 0. cbn [fold_left]. split; [reflexivity|]. split; [exact Ot|]. split; [exact Rt|]. split; [apply incl_refl|]. intros y [].
      - assert (Hx : In x (imports m)) by (apply Il; left; reflexivity).
        assert (Pm : present m t = true) by (apply present_In; rewrite Rt; left; left; reflexivity).
        destruct (IHn (rank m) Hr (S (height x)) x t) as (t1 & g1 & K1 & O2 & R2 & I2 & D2).
        + lia.
        + apply import_rank; exact Hx.
        + intros a A Pa. destruct (import_above m x a Hx A) as [K|[->|K]]; [exact K|congruence|]. rewrite (ordered_above t Ot a m K Pm) in Pa; discriminate.
        + exact Ot.
        + rewrite Rt. intros r [<-|Hx']; [lia|]. rewrite R1 in Hx'. apply Hrun in Hx'; lia.
        + destruct (IHl t1) as (t' & g2 & K2 & O3 & R3 & I3 & D3).
          * intros y Hy; apply Il; right; exact Hy.
          * exact O2.
          * rewrite R2; exact Rt.
          * eapply incl_tran; eassumption.
          * exists t', (Nat.max g1 g2). split.
            { intros f Hf. cbn [fold_left]. unfold body at 2. rewrite K1 by lia. rewrite (proj2 (mem_In x (done t1)) D2). apply K2; lia. }
            split; [exact O3|]. split; [exact R3|]. split; [eapply incl_tran; eassumption|]. intros y [<-|Hy]; [apply I3, D2|apply D3, Hy]. }
    destruct (B (imports m) (mkModules (m :: running s1) (done s1))) as (t & f2 & L2 & O2 & R2 & I2 & D2); auto using incl_refl.
    { split; [|exact (proj2 O1)]. intros k p Pk Ep. apply present_In in Pk; cbn [running done] in Pk. apply present_In; cbn [running done].
      destruct Pk as [[<-|Pk]|Pk].
      - pose proof (P1 p Ep) as X. apply present_In in X as [X|X]; [left; right; exact X|right; exact X].
      - assert (X : present p s1 = true) by (apply (proj1 O1 k); [apply present_In; auto|exact Ep]). apply present_In in X as [X|X]; [left; right; exact X|right; exact X].
      - assert (X : present p s1 = true) by (apply (proj1 O1 k); [apply present_In; auto|exact Ep]). apply present_In in X as [X|X]; [left; right; exact X|right; exact X]. }
    cbn [done] in I2. exists (mkModules (tl (running t)) (m :: done t)), (S (Nat.max f1 f2)). split.
    { intros [|f] Hf; [lia|]. cbn [load]. rewrite Em, L1 by lia. rewrite Em1. change (fold_left _ (imports m) _) with (fold_left (body f) (imports m) (Some (mkModules (m :: running s1) (done s1)))).
      rewrite L2 by lia. reflexivity. }
    rewrite R2; cbn [tl running done]. split; [|split; [exact R1|split]].
    + split.
      * intros k p Pk Ep. assert (Pk' : present k t = true) by (apply present_In; rewrite R2; apply present_In in Pk; cbn [running done] in Pk; destruct Pk as [X|[X|X]]; subst; cbn; auto).
        pose proof (proj1 O2 k p Pk' Ep) as X. apply present_In in X. rewrite R2 in X. apply present_In; cbn [running done]. destruct X as [[<-|X]|X]; cbn; auto.
      * cbn [done]. intros k x [<-|Hk] Hx; right; [apply D2, Hx|apply (proj2 O2 k x Hk Hx)].
    + intros y Hy; right; apply I2, I1, Hy.
    + left; reflexivity.
Qed.

(** nothing is loaded that is not needed *)
Lemma load_only : forall f m s s', load f m s = Some s' -> forall x, In x (done s') -> In x (done s) \/ needs m x.
Proof.
  induction f as [|f IH]; intros m s s' L x Hx; [discriminate|]. cbn [load] in L. destruct (present m s); [injection L as <-; auto|].
  destruct (match parent m with None => Some s | Some p => load f p s end) as [s1|] eqn:E1; [|discriminate].
  assert (P : forall y, In y (done s1) -> In y (done s) \/ needs m y).
  { intros y Hy. destruct (parent m) as [p|] eqn:Ep; [|injection E1 as <-; auto]. destruct (IH p s s1 E1 y Hy) as [X|X]; [auto|right; apply (of_package m p y Ep X)]. }
  destruct (present m s1); [injection L as <-; auto|].
  set (body := fun acc x => match acc with None => None | Some t => match load f x t with Some t' => if mem x (done t') then Some t' else None | None => None end end) in L.
  assert (B : forall l t t', incl l (imports m) -> fold_left body l (Some t) = Some t' -> forall y, In y (done t') -> In y (done t) \/ needs m y).
  { assert (Z : forall l, fold_left body l None = None) by (induction l; cbn; auto).
    induction l as [|z l IHl]; intros t t' Il E y Hy; cbn [fold_left] in E; [injection E as <-; auto|].
    unfold body at 2 in E. destruct (load f z t) as [t1|] eqn:E2; [|rewrite Z in E; discriminate]. destruct (mem z (done t1)); [|rewrite Z in E; discriminate].
    assert (Iz : In z (imports m)) by (apply Il; left; reflexivity).
    destruct (IHl t1 t' (fun k Hk => Il k (or_intror Hk)) E y Hy) as [X|X]; [|auto]. destruct (IH z t t1 E2 y X) as [Y|Y]; [auto|right; apply (of_import m z y Iz Y)]. }
  destruct (fold_left body (imports m) _) as [s2|] eqn:E2; [|discriminate]. injection L as <-. cbn [done] in Hx. destruct Hx as [<-|Hx]; [right; apply self|].
  destruct (B _ _ _ (incl_refl _) E2 x Hx) as [X|X]; [apply P, X|auto].
Qed.
Lemma needs_closed : forall s, ordered s -> running s = [] -> forall m x, needs m x -> In m (done s) -> In x (done s).
Proof.
  intros s [O1 O2] R m x H; induction H as [m|m p x E _ IH|m y x E _ IH]; intros D; auto.
  - apply IH. assert (P : present p s = true) by (apply (O1 m p); [apply present_In; auto|exact E]). apply present_In in P. rewrite R in P. destruct P as [[]|P]; exact P.
  - apply IH. apply (O2 m y D E).
Qed.

(** Whatever files a program imports, in whatever order: no import fails, every file that was started has finished, and the
    loaded files are exactly those that are needed by one of the imported ones.  In particular the order makes no difference. *)
Theorem C127_every_order : forall ms, exists s f0, (forall f, f0 <= f -> load_all f ms fresh_start = Some s) /\
  running s = [] /\ forall x, In x (done s) <-> exists m, In m ms /\ needs m x.
Proof.
  intros ms.
  assert (G : forall ms s, ordered s -> running s = [] -> exists s' f0, (forall f, f0 <= f -> load_all f ms s = Some s') /\ ordered s' /\ running s' = [] /\ incl (done s) (done s') /\ incl ms (done s') /\
            forall x, In x (done s') -> In x (done s) \/ exists m, In m ms /\ needs m x).
  { clear ms. induction ms as [|m l IH]; intros s O Rn.
    - exists s, 0. split; [reflexivity|]. split; [exact O|]. split; [exact Rn|]. split; [apply incl_refl|]. split; [intros y []|auto].
    - destruct (loads_all 10 (S (height m)) m s) as (s1 & f1 & L1 & O1 & R1 & I1 & D1); auto using rank_bound.
      + rewrite Rn; intros r [].
      + destruct (IH s1 O1) as (s2 & f2 & L2 & O2 & R2 & I2 & D2 & N2); [congruence|]. exists s2, (Nat.max f1 f2). split.
        { intros f Hf. unfold load_all. cbn [fold_left]. rewrite L1 by lia. apply L2; lia. }
        split; [exact O2|]. split; [exact R2|]. split; [eapply incl_tran; eassumption|]. split; [intros y [<-|Hy]; [apply I2, D1|apply D2, Hy]|].
        intros x Hx. destruct (N2 x Hx) as [X|(k & Hk & X)]; [|right; exists k; split; [right; exact Hk|exact X]].
        destruct (load_only f1 m s s1 (L1 f1 (le_n _)) x X) as [Y|Y]; [auto|right; exists m; split; [left; reflexivity|exact Y]]. }
  destruct (G ms fresh_start) as (s & f0 & L & O & Rn & _ & D & N); [split; [intros m p H; discriminate|intros m x []]|reflexivity|].
  exists s, f0. split; [exact L|]. split; [exact Rn|]. intros x; split.
  - intros Hx. destruct (N x Hx) as [[]|X]; exact X.
  - intros (m & Hm & Nx). apply (needs_closed s O Rn m x Nx). apply D, Hm.
Qed.
Print Assumptions C127_every_order.

Definition touching : list file :=
  [distance; distance_correlation; distance_matrix; distance_information; distance_matrix_divergence; clustering; clustering_hierarchical; clustering_metrics].
Lemma needs_distance : forall m, needs m distance_matrix <-> In m touching.
Proof.
  intros m; split.
  - intros H. remember distance_matrix as d eqn:E. induction H as [m|m p x Ep _ IH|m y x Ey _ IH].
    + subst; cbn; tauto.
    + specialize (IH E). destruct m; cbn in Ep; try discriminate; injection Ep as <-; cbn in IH |- *; intuition discriminate.
    + specialize (IH E). destruct m; cbn in Ey; repeat (destruct Ey as [<-|Ey]; [cbn in IH |- *; intuition discriminate|]); destruct Ey.
  - assert (D : needs distance distance_matrix) by (apply (of_import _ distance_matrix); [cbn; tauto|apply self]).
    assert (H : needs clustering_hierarchical distance_matrix) by (apply (of_import _ distance_matrix); [cbn; tauto|apply self]).
    assert (C : needs clustering distance_matrix) by (apply (of_import _ clustering_hierarchical); [cbn; tauto|exact H]).
    intros X. cbn in X. repeat (destruct X as [<-|X]; [first [exact D | exact H | exact C | apply self | apply (of_package _ distance); [reflexivity|exact D] | apply (of_package _ clustering); [reflexivity|exact C]]|]). destruct X.
Qed.

(** Which imports set the level of the logger (distance/distance_matrix.py 22-23, see C73): those of quantfinlib.distance or
    quantfinlib.clustering or of any file in them, and no others. *)
Theorem C127_logger : forall ms s f0, (forall f, f0 <= f -> load_all f ms fresh_start = Some s) ->
  (In distance_matrix (done s) <->
   exists m, In m ms /\ In m [distance; distance_correlation; distance_matrix; distance_information; distance_matrix_divergence;
                              clustering; clustering_hierarchical; clustering_metrics]).
Proof.
  intros ms s f0 L. destruct (C127_every_order ms) as (s' & f1 & L' & _ & N).
  assert (s' = s) as -> by (specialize (L (Nat.max f0 f1) ltac:(lia)); specialize (L' (Nat.max f0 f1) ltac:(lia)); congruence).
  rewrite N. split; intros (m & Hm & X); exists m; (split; [exact Hm|]).
  - apply needs_distance; exact X.
  - apply needs_distance; exact X.
Qed.
Print Assumptions C127_logger.
(** one name from the clustering package: the files that get loaded, in the order in which they finish, latest first *)
Example C127_example : load_all 20 [clustering_metrics; util_custom_types] fresh_start =
  Some (mkModules [] [util_custom_types; clustering; clustering_hierarchical; clustering_metrics; distance; distance_matrix; distance_matrix_divergence; distance_information;
    util; util_validate; util_dtypes; util_logging; util_fs_utils; distance_correlation; quantfinlib]).
Proof. reflexivity. Qed.
