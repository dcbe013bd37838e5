(** C85: what each declared type of the splitters accepts.  C73: what a program's own changes of the logger do. *)
From Coq Require Import String List Arith Bool ZArith Lia.
From Verif Require Import Base Num Sim_Model Dist_Model Util_Model Util_Spec Util_Props Types_Model.
Import ListNotations.
Local Open Scope nat_scope.

(** ** declared types *)

(** dtypes that safely become 64-bit integers, 64-bit floats, booleans *)
Definition integral (t : dtype) : Prop :=
  t = DBool \/ (exists m, m <= 64 /\ t = DInt m) \/ (exists m, m < 64 /\ t = DUint m).
Definition real (t : dtype) : Prop :=
  t = DBool \/ (exists m, t = DInt m \/ t = DUint m) \/ (exists m, m <= 64 /\ t = DFloat m).
(** a validator accepts exactly the values with this property, unchanged, and raises TypeError for all others *)
Definition accepts (f : value -> res value) (P : value -> Prop) : Prop :=
  forall v, (P v -> f v = Ok v) /\ (~ P v -> f v = Raise TypeError).
Definition vector_of (P : dtype -> Prop) (v : value) : Prop := exists id t n, v = VArray id t [n] /\ P t.
Definition series_of (t : dtype) (v : value) : Prop := exists id n, v = VSeries id t n.

Lemma castable_int : forall t, castable t (DInt 64) <-> integral t.
Proof.
  intros t; rewrite <- can_cast_iff. unfold integral.
  destruct t as [|m|m|m| |k]; cbn [can_cast]; rewrite ?Nat.leb_le, ?Nat.ltb_lt; split; intros H; auto;
    try discriminate; try (destruct H as [H|[[q [Hq H]]|[q [Hq H]]]]; try discriminate; injection H as ->; auto).
  - right; left; eauto.
  - right; right; eauto.
Qed.
Lemma castable_real : forall t, castable t (DFloat 64) <-> real t.
Proof.
  intros t; rewrite <- can_cast_iff. unfold real.
  destruct t as [|m|m|m| |k]; cbn [can_cast]; rewrite ?Nat.leb_le; split; intros H; auto;
    try discriminate;
    try (destruct H as [H|[[q [H|H]]|[q [Hq H]]]]; try discriminate; injection H as ->; auto using Nat.le_min_l).
  - right; left; eauto.
  - right; left; eauto.
  - right; right; eauto.
Qed.
Lemma castable_bool : forall t, castable t DBool <-> t = DBool.
Proof.
  intros t; rewrite <- can_cast_iff. destruct t; cbn [can_cast]; split; intros H; auto; discriminate.
Qed.
Lemma array_accepts : forall ex dt (P : value -> Prop),
  ~ In EBad ex -> (forall v, array_fits (AShape ex) dt v <-> P v) -> accepts (validate_numpy_array (AShape ex) dt) P.
Proof.
  intros ex dt P HB HP v.
  assert (RD : readable (AShape ex)) by (intros e E; injection E as <-; auto).
  destruct (C85_array (AShape ex) dt v RD) as [H1 H2].
  split; intros H; [apply H1|apply H2]; rewrite HP; auto.
Qed.
Lemma vector_fits : forall d P, (forall t, castable t d <-> P t) ->
  forall v, array_fits (AShape [EAny]) (Some d) v <-> vector_of P v.
Proof.
  intros d P H v. unfold array_fits, vector_of. split.
  - intros [id [t [s [-> [H1 H2]]]]]. specialize (H2 _ eq_refl).
    inversion H2 as [|n e s' ex' Hn Hs E1 E2]; subst. inversion Hs; subst.
    exists id, t, n; split; auto. apply H, H1; reflexivity.
  - intros [id [t [n [-> Ht]]]]. exists id, t, [n]; split; [reflexivity|]. split.
    + intros d' E; injection E as <-; apply H; auto.
    + intros ex E; injection E as <-. constructor; [left; reflexivity|constructor].
Qed.
Lemma no_bad : ~ In EBad [EAny]. Proof. intros [H|[]]; discriminate. Qed.

(** Index arrays, integer labels and integer groups: one-dimensional arrays of any dtype that safely becomes a 64-bit
    integer, booleans included; float labels: also floats and every integer width; boolean labels: booleans only. *)
Theorem C85_declared_vectors :
  accepts index_type (vector_of integral) /\ accepts y_int_array (vector_of integral) /\
  accepts group_array (vector_of integral) /\ accepts y_float_array (vector_of real) /\
  accepts y_bool_array (vector_of (fun t => t = DBool)).
Proof.
  repeat split; (eapply array_accepts; [apply no_bad|]; apply vector_fits); auto using castable_int, castable_real,
    castable_bool.
Qed.
Print Assumptions C85_declared_vectors.

(** Fold bounds: integer arrays with two columns.  Features: two-dimensional arrays of any dtype, or any frame. *)
Theorem C85_declared_tables :
  accepts bound_per_fold_type (fun v => exists id t n, v = VArray id t [n; 2] /\ integral t) /\
  accepts x_array (fun v => exists id t n m, v = VArray id t [n; m]) /\
  accepts x_frame (fun v => exists id cols n, v = VFrame id cols n).
Proof.
  split; [|split].
  - apply array_accepts; [intros [H|[H|[]]]; discriminate|]. intros v; split.
    + intros [id [t [s [-> [H1 H2]]]]]. specialize (H2 _ eq_refl).
      inversion H2 as [|n e s' ex' Hn Hs E1 E2]; subst. inversion Hs as [|n2 e s'' ex'' Hn2 Hs2 E1 E2]; subst.
      inversion Hs2; subst. destruct Hn2 as [H|H]; [discriminate|]. injection H as H.
      assert (n2 = 2) by lia; subst. exists id, t, n; split; auto. apply castable_int, H1; reflexivity.
    + intros [id [t [n [-> Ht]]]]. exists id, t, [n; 2]; split; [reflexivity|]. split.
      * intros d E; injection E as <-; apply castable_int; auto.
      * intros ex E; injection E as <-. constructor; [left; reflexivity|]. constructor; [right; reflexivity|constructor].
  - apply array_accepts; [intros [H|[H|[]]]; discriminate|]. intros v; split.
    + intros [id [t [s [-> [H1 H2]]]]]. specialize (H2 _ eq_refl).
      inversion H2 as [|n e s' ex' Hn Hs E1 E2]; subst. inversion Hs as [|n2 e s'' ex'' Hn2 Hs2 E1 E2]; subst.
      inversion Hs2; subst. exists id, t, n, n2; reflexivity.
    + intros [id [t [n [m ->]]]]. exists id, t, [n; m]; split; [reflexivity|]. split; [discriminate|].
      intros ex E; injection E as <-. repeat constructor.
  - intros v; split.
    + intros [id [cols [n ->]]]; reflexivity.
    + intros H; destruct v as [id t s|id cols n|id t n|id]; try reflexivity.
      exfalso; apply H; exists id, cols, n; reflexivity.
Qed.
Print Assumptions C85_declared_tables.

(** Series are compared by dtype, without casts: a 32-bit integer Series is refused where a 32-bit integer array is
    accepted. *)
Theorem C85_declared_series :
  accepts y_int_series (series_of (DInt 64)) /\ accepts group_series (series_of (DInt 64)) /\
  accepts y_float_series (series_of (DFloat 64)) /\ accepts y_bool_series (series_of DBool) /\
  (forall id n, group_array (VArray id (DInt 32) [n]) = Ok (VArray id (DInt 32) [n]) /\
                group_series (VSeries id (DInt 32) n) = Raise TypeError).
Proof.
  assert (K : forall t, accepts (validate_series (Some t) EAny) (series_of t)).
  { intros t v. destruct (C85_series (Some t) EAny v) as [H1 H2]. split; intros H.
    - apply H1. destruct H as [id [n ->]]. exists id, t, n; repeat split; auto.
      + intros d E; injection E as <-; reflexivity.
      + left; reflexivity.
    - apply H2. intros [id [t' [n [-> [Ht _]]]]]. apply H. rewrite (Ht t eq_refl). exists id, n; reflexivity. }
  repeat split; try apply K; reflexivity || (apply K; assumption) || auto.
Qed.
Print Assumptions C85_declared_series.

(** The arm declared for a DatetimeIndex refuses everything but a Series, so every DatetimeIndex; and it accepts a Series
    of any dtype. *)
Theorem C85_group_datetime_index_refuted :
  accepts group_datetime_index (fun v => exists t, series_of t v) /\
  (forall id, group_datetime_index (VAny id) = Raise TypeError).
Proof.
  split; [|reflexivity]. intros v; destruct v as [id t s|id cols n|id t n|id]; split; intros H; try reflexivity;
    try (destruct H as [t' [i' [n' H]]]; discriminate).
  exfalso; apply H; exists t, id, n; reflexivity.
Qed.
Print Assumptions C85_group_datetime_index_refuted.
Example C85_declared_example :
  vector_of integral (VArray 3 (DUint 8) [100]) /\ ~ vector_of integral (VArray 3 (DUint 64) [100]) /\
  vector_of real (VArray 3 (DUint 64) [100]) /\ ~ vector_of real (VArray 3 (DFloat 64) [100; 1]).
Proof.
  split; [|split; [|split]].
  - exists 3, (DUint 8), 100; split; [reflexivity|]. right; right. exists 8; split; [lia|reflexivity].
  - intros [id [t [n [E H]]]]. injection E as <- <- <-. destruct H as [H|[[m [_ H]]|[m [L H]]]]; try discriminate.
    injection H as <-; lia.
  - exists 3, (DUint 64), 100; split; [reflexivity|]. right; left; eauto.
  - intros [id [t [n [E H]]]]; discriminate.
Qed.

(** ** changes of the logger by the program itself *)

(** every handler on the list is a different object, made before now *)
Definition sound (g : logger) : Prop :=
  NoDup (map hid (handlers g)) /\ Forall (fun h => hid h < fresh g) (handlers g).

Lemma remove_first_in : forall i l k, NoDup (map hid l) ->
  (In k (remove_first i l) <-> In k l /\ hid k <> i).
Proof.
  intros i l; induction l as [|h t IH]; intros k ND; cbn [remove_first]; [simpl; tauto|].
  cbn [map] in ND. inversion ND as [|x y Hx Hy]; subst.
  destruct (Nat.eqb_spec (hid h) i) as [E|E].
  - split.
    + intros Hk; split; [right; auto|]. intros Ek. apply Hx. rewrite E, <- Ek. apply in_map; auto.
    + intros [[->|Hk] Hi]; [contradiction|auto].
  - simpl. rewrite (IH k Hy). split.
    + intros [->|[Hk Hi]]; auto.
    + intros [[->|Hk] Hi]; auto.
Qed.
Lemma remove_first_sound : forall i l, NoDup (map hid l) -> NoDup (map hid (remove_first i l)).
Proof.
  intros i l; induction l as [|h t IH]; intros ND; cbn [remove_first]; auto.
  cbn [map] in ND. inversion ND as [|x y Hx Hy]; subst. destruct (Nat.eqb (hid h) i); auto.
  cbn [map]. constructor; auto. intros Hin. apply Hx. apply in_map_iff in Hin as [k [Ek Hk]].
  apply remove_first_in in Hk; auto. rewrite <- Ek; apply in_map; tauto.
Qed.
Lemma add_fresh : forall s v l hs n o d, sound (mkLogger l hs n o d) ->
  add_handler (mkHandler n s v) (mkLogger l hs (S n) o d) = mkLogger l (hs ++ [mkHandler n s v]) (S n) o d /\
  sound (mkLogger l (hs ++ [mkHandler n s v]) (S n) o d).
Proof.
  intros s v l hs n o d [ND F]; cbn [handlers fresh] in *. unfold add_handler; cbn [handlers hid].
  assert (E : existsb (fun h' => Nat.eqb (hid h') n) hs = false).
  { destruct (existsb _ _) eqn:E; auto. apply existsb_exists in E as [h [Hh En]]. apply Nat.eqb_eq in En.
    rewrite Forall_forall in F. specialize (F h Hh). lia. }
  rewrite E. split; [reflexivity|]. split; cbn [handlers fresh].
  - rewrite map_app; cbn [map hid]. rewrite Forall_forall in F.
    clear E. induction hs as [|h t IH]; cbn [map app] in *; [constructor; [intros []|constructor]|].
    inversion ND as [|x y Hx Hy]; subst. constructor.
    + intros H; apply in_app_or in H as [H|[H|[]]]; [contradiction|].
      specialize (F h (or_introl eq_refl)). lia.
    + apply IH; auto. intros k Hk; apply F; right; auto.
  - apply Forall_app; split; [|constructor; cbn [hid]; auto].
    apply Forall_impl with (2 := F). intros; lia.
Qed.
Lemma log_keeps : forall root l g, handlers (log root l g) = handlers g /\ fresh (log root l g) = fresh g /\
  level (log root l g) = level g.
Proof. intros root l g; unfold log. destruct (Z.leb _ _); auto. Qed.
Lemma step_sound : forall root can g o, sound g -> sound (log_step root can g o).
Proof.
  intros root can g o H. destruct g as [l hs n ou d]. destruct o as [v f p| |s v|h|v|m]; cbn [log_step].
  - unfold configure_logger, set_level; cbn [handlers fresh out distance_loaded level]. rewrite remove_all.
    unfold new_handler; cbn [handlers fresh out distance_loaded level].
    assert (S0 : sound (mkLogger v [] n ou d)) by (split; constructor).
    destruct (add_fresh Console v v [] n ou d S0) as [-> S1].
    destruct f.
    + destruct (can p).
      * cbn [handlers fresh out distance_loaded level].
        destruct (add_fresh (LogFile p) v v _ (S n) ou d S1) as [-> S2].
        cbn [fst]. destruct (log_keeps root INFO (mkLogger v (([] ++ [mkHandler n Console v]) ++ [mkHandler (S n) (LogFile p) v]) (S (S n)) ou d)) as [E1 [E2 _]].
        unfold sound; rewrite E1, E2; exact S2.
      * exact S1.
    + cbn [fst]. destruct (log_keeps root INFO (mkLogger v ([] ++ [mkHandler n Console v]) (S n) ou d)) as [E1 [E2 _]].
      unfold sound; rewrite E1, E2; exact S1.
  - unfold import_distance. destruct (distance_loaded _); exact H.
  - unfold new_handler; cbn [handlers fresh out distance_loaded level].
    destruct (add_fresh s v l hs n ou d H) as [-> S1]; exact S1.
  - destruct H as [ND F]; unfold remove_handler, set_handlers, sound; cbn [handlers fresh] in *. split.
    + apply remove_first_sound; auto.
    + apply Forall_forall; intros k Hk. apply remove_first_in in Hk; auto. rewrite Forall_forall in F; apply F; tauto.
  - exact H.
  - destruct (log_keeps root m (mkLogger l hs n ou d)) as [E1 [E2 _]]. unfold sound; rewrite E1, E2; exact H.
Qed.
Lemma run_sound : forall root can ops g, sound g -> sound (log_run root can ops g).
Proof.
  intros root can ops; induction ops as [|o t IH]; intros g H; [exact H|]. apply (IH _ (step_sound root can g o H)).
Qed.
Lemma initial_sound : sound initial. Proof. split; constructor. Qed.

(** Removing a handler, after any history: exactly that handler is gone, the level and what was written are kept; a
    handler that is not there is ignored. *)
Theorem C73_user_removes : forall root can ops h,
  let g := log_run root can ops initial in
  let g' := log_run root can (ops ++ [UserRemoves h]) initial in
  (forall k, In k (handlers g') <-> In k (handlers g) /\ hid k <> hid h) /\ level g' = level g /\ out g' = out g.
Proof.
  intros root can ops h g g'.
  assert (E : g' = remove_handler h g) by (unfold g', g, log_run; rewrite fold_left_app; reflexivity).
  rewrite E. pose proof (run_sound root can ops initial initial_sound) as [ND _]. fold g in ND.
  split; [|split; reflexivity]. intros k; apply remove_first_in; exact ND.
Qed.
Print Assumptions C73_user_removes.

(** Adding one: it comes last, the others stay, and a message that passes the level of the logger is written to it, once,
    if it also reaches the level of the handler. *)
Theorem C73_user_adds : forall root can ops s v l,
  let g := log_run root can ops initial in
  let g' := log_run root can (ops ++ [UserAdds s v]) initial in
  shown g' = shown g ++ [(s, v)] /\ level g' = level g /\ out g' = out g /\
  exists old, out (log_run root can (ops ++ [Message l]) initial) = out g ++ old /\
    out (log_run root can (ops ++ [UserAdds s v; Message l]) initial) =
      out g ++ old ++ (if ((if Z.eqb (level g) 0 then root else level g) <=? l)%Z && (v <=? l)%Z
                       then [(s, l)] else []).
Proof.
  intros root can ops s v l g g'.
  pose proof (run_sound root can ops initial initial_sound) as HS. fold g in HS.
  assert (E : g' = log_step root can g (UserAdds s v)) by (unfold g', g, log_run; rewrite fold_left_app; reflexivity).
  assert (E1 : log_run root can (ops ++ [Message l]) initial = log root l g)
    by (unfold g, log_run; rewrite fold_left_app; reflexivity).
  assert (E2 : log_run root can (ops ++ [UserAdds s v; Message l]) initial = log root l g')
    by (unfold g', log_run; rewrite !fold_left_app; reflexivity).
  rewrite E1, E2, E. clearbody g; clear E E1 E2 g'. destruct g as [lv hs n o d]. cbn [log_step].
  unfold new_handler; cbn [handlers fresh out distance_loaded level].
  destruct (add_fresh s v lv hs n o d HS) as [-> _].
  unfold shown; cbn [handlers level out]. rewrite map_app. repeat split; auto.
  unfold log; cbn [handlers level out fresh distance_loaded].
  destruct (Z.leb _ l); cbn [out andb]; [|exists []; rewrite !app_nil_r; auto].
  eexists; split; [reflexivity|]. rewrite filter_app, map_app. cbn [filter hlevel].
  destruct (Z.leb v l); reflexivity.
Qed.
Print Assumptions C73_user_adds.

(** Setting the level touches nothing else; a message below it is written nowhere. *)
Theorem C73_user_level : forall root can ops v l,
  let g := log_run root can ops initial in
  let g' := log_run root can (ops ++ [UserSetsLevel v]) initial in
  shown g' = shown g /\ level g' = v /\ out g' = out g /\
  ((v <> 0 /\ l < v)%Z -> log_run root can (ops ++ [UserSetsLevel v; Message l]) initial = g').
Proof.
  intros root can ops v l g g'.
  assert (E : g' = set_level v g) by (unfold g', g, log_run; rewrite fold_left_app; reflexivity).
  assert (E2 : log_run root can (ops ++ [UserSetsLevel v; Message l]) initial = log root l g')
    by (unfold g', log_run; rewrite !fold_left_app; reflexivity).
  rewrite E2, E. clearbody g. destruct g as [lv hs n o d]. repeat split.
  intros [Hv Hl]. unfold log, set_level; cbn [level].
  destruct (Z.eqb_spec v 0) as [H|_]; [contradiction|].
  destruct (Z.leb_spec v l); [lia|reflexivity].
Qed.
Print Assumptions C73_user_level.
Example C73_user_example :
  let ops := [Configure INFO false "q.log"; UserAdds (Custom 1) 40%Z; Message 30%Z; Message 50%Z;
              UserRemoves (mkHandler 0 Console INFO); Message 45%Z] in
  out (log_run 30%Z (fun _ => true) ops initial) =
  [(Console, 20%Z); (Console, 30%Z); (Console, 50%Z); (Custom 1, 50%Z); (Custom 1, 45%Z)].
Proof. reflexivity. Qed.
