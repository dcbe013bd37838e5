(** C72-C74 and C85: validators, logger, data sets, annotations. *)
From Coq Require Import String List Arith Bool ZArith Lia.
From Verif Require Import Base Num Sim_Model Dist_Model Util_Model Util_Spec.
Import ListNotations.
Local Open Scope nat_scope.

(* ------------------------------------------------------------------ *)
(** ** validators *)

Lemma mem_In : forall n l, mem n l = true <-> In n l.
Proof.
  intros n l; unfold mem; rewrite existsb_exists; split.
  - intros [x [Hx E]]; apply String.eqb_eq in E; subst; auto.
  - intros H; exists n; split; auto; apply String.eqb_refl.
Qed.
Lemma mem_false : forall n l, mem n l = false <-> ~ In n l.
Proof.
  intros n l; rewrite <- mem_In; destruct (mem n l); split; intros; try discriminate; auto.
  - exfalso; auto.
Qed.
Lemma lookup_in : forall V n (l : list (string * V)) v, lookup n l = Some v -> In (n, v) l.
Proof.
  intros V n l; induction l as [|[k w] t IH]; simpl; intros v H; [discriminate|].
  destruct (String.eqb k n) eqn:E.
  - apply String.eqb_eq in E; injection H as <-; subst; auto.
  - right; auto.
Qed.
Lemma lookup_none : forall V n (l : list (string * V)), lookup n l = None <-> ~ In n (map fst l).
Proof.
  intros V n l; induction l as [|[k w] t IH]; simpl; [tauto|].
  destruct (String.eqb k n) eqn:E.
  - apply String.eqb_eq in E; split; [discriminate|intros H; exfalso; auto].
  - apply String.eqb_neq in E; rewrite IH; tauto.
Qed.
Lemma in_lookup : forall V n (l : list (string * V)) v, NoDup (map fst l) -> In (n, v) l -> lookup n l = Some v.
Proof.
  intros V n l; induction l as [|[k w] t IH]; simpl; intros v ND H; [contradiction|].
  inversion ND as [|? ? Hk Ht]; subst.
  destruct H as [H|H].
  - injection H as -> ->; rewrite String.eqb_refl; reflexivity.
  - destruct (String.eqb k n) eqn:E; auto.
    apply String.eqb_eq in E; subst. exfalso; apply Hk. apply in_map_iff; exists (n, v); auto.
Qed.
Lemma lookup_app1 : forall V n (l : list (string * V)) k w,
  lookup n (l ++ [(k, w)]) =
  match lookup n l with Some v => Some v | None => if String.eqb k n then Some w else None end.
Proof.
  intros V n l k w; induction l as [|[k' w'] t IH]; simpl; auto.
  destruct (String.eqb k' n); auto.
Qed.

Lemma bind_keywords_ok : forall (sig : signature) kw (bound : list (string * arg)),
  NoDup (map fst kw) ->
  (forall k v, In (k, v) kw -> lookup k bound = None /\ (In k (params sig) \/ varkw sig = true)) ->
  exists b', bind_keywords sig bound kw = Ok b' /\
    forall n v, lookup n b' = Some v <-> lookup n bound = Some v \/ (In n (params sig) /\ In (n, v) kw).
Proof.
  intros sig kw; induction kw as [|[k v] t IH]; simpl; intros bound ND H.
  - exists bound; split; auto. intros; tauto.
  - inversion ND as [|? ? Hk Ht]; subst.
    destruct (H k v (or_introl eq_refl)) as [H1 H2].
    destruct (mem k (params sig)) eqn:E.
    + apply mem_In in E. rewrite H1.
      destruct (IH (bound ++ [(k, v)]) Ht) as [b' [E1 E2]].
      { intros k' v' Hin. destruct (H k' v' (or_intror Hin)) as [H3 H4]; split; auto.
        rewrite lookup_app1, H3. destruct (String.eqb k k') eqn:Ek; auto.
        apply String.eqb_eq in Ek; subst. exfalso; apply Hk, in_map_iff; exists (k', v'); auto. }
      exists b'; split; auto. intros n w; rewrite E2, lookup_app1. split.
      * intros [Hl|[Hp Hi]]; [|right; auto].
        destruct (lookup n bound) eqn:El; [left; auto|].
        destruct (String.eqb k n) eqn:Ek; [|discriminate].
        apply String.eqb_eq in Ek; injection Hl as <-; subst. right; auto.
      * intros [Hl|[Hp [Hi|Hi]]]; [left; rewrite Hl; auto| |right; auto].
        injection Hi as -> ->. left; rewrite H1, String.eqb_refl; auto.
    + apply mem_false in E. destruct H2 as [H2|H2]; [contradiction|rewrite H2].
      destruct (IH bound Ht) as [b' [E1 E2]].
      { intros k' v' Hin; apply (H k' v'); auto. }
      exists b'; split; auto. intros n w; rewrite E2; split; intros [Hl|[Hp Hi]]; auto.
      destruct Hi as [Hi|Hi]; auto. injection Hi as -> ->; contradiction.
Qed.
Lemma bind_keywords_inv : forall (sig : signature) kw (bound : list (string * arg)),
  (exists b', bind_keywords sig bound kw = Ok b' /\
     (forall k v, In (k, v) kw -> (In k (params sig) -> lookup k bound = None) /\ (In k (params sig) \/ varkw sig = true)))
  \/ bind_keywords sig bound kw = Raise TypeError.
Proof.
  intros sig kw; induction kw as [|[k v] t IH]; simpl; intros bound.
  - left; exists bound; split; auto; intros; contradiction.
  - destruct (mem k (params sig)) eqn:E.
    + destruct (lookup k bound) eqn:El; [right; auto|].
      destruct (IH (bound ++ [(k, v)])) as [[b' [E1 E2]]|E1]; [left|right; auto].
      exists b'; split; auto. intros k' v' [Hi|Hi].
      * injection Hi as -> ->. apply mem_In in E; auto.
      * destruct (E2 k' v' Hi) as [E3 E4]; split; auto. intros Hp. specialize (E3 Hp).
        rewrite lookup_app1 in E3. destruct (lookup k' bound); [discriminate|auto].
    + destruct (varkw sig) eqn:Ev; [|right; auto].
      destruct (IH bound) as [[b' [E1 E2]]|E1]; [left|right; auto].
      exists b'; split; auto. intros k' v' [Hi|Hi]; [|rewrite <- Ev; rewrite Ev; apply E2 with v'; auto].
      injection Hi as -> ->. apply mem_false in E; split; auto. intros; contradiction.
Qed.

Lemma lookup_combine : forall (ps : list string) (args : list arg) n,
  NoDup ps -> forall v, lookup n (combine ps args) = Some v <->
    exists i, nth_error ps i = Some n /\ nth_error args i = Some v.
Proof.
  induction ps as [|p ps IH]; intros args n ND v.
  - simpl; split; [discriminate|]. intros [i [H _]]; destruct i; discriminate.
  - inversion ND as [|? ? Hp Ht]; subst. destruct args as [|a args]; simpl.
    + split; [discriminate|]. intros [i [_ H]]; destruct i; discriminate.
    + destruct (String.eqb p n) eqn:E.
      * apply String.eqb_eq in E; subst. split.
        -- intros H; injection H as <-; exists 0; auto.
        -- intros [[|i] [H1 H2]]; simpl in *; [injection H2 as <-; auto|].
           exfalso; apply Hp; eapply nth_error_In; eauto.
      * apply String.eqb_neq in E. rewrite (IH args n Ht v). split.
        -- intros [i [H1 H2]]; exists (S i); auto.
        -- intros [[|i] [H1 H2]]; simpl in *; [injection H1 as ->; contradiction|exists i; auto].
Qed.
Lemma map_fst_combine : forall (ps : list string) (args : list arg),
  length args <= length ps -> map fst (combine ps args) = firstn (length args) ps.
Proof.
  induction ps as [|p ps IH]; intros [|a args] H; simpl in *; auto; try lia.
  rewrite IH by lia; auto.
Qed.

Lemma bind_partial_ok : forall sig args kwargs, proper sig kwargs -> matches sig args kwargs ->
  exists b, bind_partial sig args kwargs = Ok b /\ forall n v, lookup n b = Some v <-> gives sig args kwargs n v.
Proof.
  intros sig args kw [N1 N2] [HL HM]. unfold bind_partial.
  destruct (Nat.ltb_spec (length (params sig)) (length args)) as [C|C]; [lia|].
  destruct (bind_keywords_ok sig kw (combine (params sig) args) N2) as [b [E1 E2]].
  { intros k v Hin. destruct (HM k v Hin) as [H1 H2]; split; auto.
    apply lookup_none. rewrite map_fst_combine by lia; auto. }
  exists b; split; auto. intros n v; rewrite E2, lookup_combine by auto. reflexivity.
Qed.
Lemma bind_partial_fails : forall sig args kwargs, ~ matches sig args kwargs ->
  bind_partial sig args kwargs = Raise TypeError.
Proof.
  intros sig args kw H. unfold bind_partial.
  destruct (Nat.ltb_spec (length (params sig)) (length args)) as [C|C]; auto.
  destruct (bind_keywords_inv sig kw (combine (params sig) args)) as [[b [E1 E2]]|E]; auto.
  exfalso; apply H; split; [lia|]. intros k v Hin. destruct (E2 k v Hin) as [H1 H2]; split; auto.
  intros Hf. assert (Hp : In k (params sig)).
  { rewrite <- (firstn_skipn (length args) (params sig)). apply in_or_app; auto. }
  specialize (H1 Hp). apply lookup_none in H1. rewrite map_fst_combine in H1 by lia. auto.
Qed.

Lemma check_named_spec : forall check (valid : obj -> Prop),
  (forall o, (valid o -> check o = Ok tt) /\ (~ valid o -> check o = Raise ValueError)) ->
  (forall o, valid o \/ ~ valid o) ->
  forall names bound,
  ((forall n o, In n names -> lookup n bound = Some (AObj o) -> valid o) -> check_named check names bound = Ok tt) /\
  (~ (forall n o, In n names -> lookup n bound = Some (AObj o) -> valid o) ->
   check_named check names bound = Raise ValueError).
Proof.
  intros check valid HC HD names bound; induction names as [|n t [IH1 IH2]]; simpl.
  - split; auto. intros H; exfalso; apply H; intros; contradiction.
  - assert (K : (exists o, lookup n bound = Some (AObj o) /\ ~ valid o) \/
                (forall o, lookup n bound = Some (AObj o) -> valid o)).
    { destruct (lookup n bound) as [[|o]|]; try (right; intros; discriminate).
      destruct (HD o) as [Ho|Ho]; [right|left; eauto]. intros o' E; injection E as <-; auto. }
    split; intros H.
    + assert (Hn : (match lookup n bound with Some (AObj x) => check x | _ => Ok tt end) = Ok tt).
      { destruct (lookup n bound) as [[|o]|] eqn:E; auto. apply (HC o), (H n o); auto. }
      destruct (lookup n bound) as [[|o]|]; try rewrite Hn; cbn [bind]; apply IH1; intros; eapply H; eauto.
    + destruct K as [[o [E Ho]]|K].
      * rewrite E. rewrite (proj2 (HC o) Ho). reflexivity.
      * assert (Hn : (match lookup n bound with Some (AObj x) => check x | _ => Ok tt end) = Ok tt).
        { destruct (lookup n bound) as [[|o]|] eqn:E; auto. apply (HC o), K; auto. }
        destruct (lookup n bound) as [[|o]|] eqn:E; try rewrite Hn; cbn [bind]; apply IH2; intros H'; apply H;
          intros m o' [Hm|Hm] Hl; subst; eauto; rewrite E in Hl; try discriminate; eapply K; eauto.
Qed.

Lemma check_1d_spec : forall o,
  (valid_1d o -> (_ <- check_dtype_series_or_array o ;; check_ndim_shape_1d o) = Ok tt) /\
  (~ valid_1d o -> (_ <- check_dtype_series_or_array o ;; check_ndim_shape_1d o) = Raise ValueError).
Proof.
  intros o; split.
  - intros [l [[->| ->] H]]; unfold check_ndim_shape_1d; cbn [check_dtype_series_or_array bind ndim shape Nat.eqb negb];
      destruct (Nat.ltb_spec (length l) 2); auto; lia.
  - intros H. unfold check_ndim_shape_1d.
    destruct o as [c|l|a|n|l|names a|]; cbn [check_dtype_series_or_array bind ndim shape]; auto; cbn [Nat.eqb negb].
    + destruct (Nat.ltb_spec (length l) 2); auto. exfalso; apply H; exists l; auto.
    + destruct (Nat.eqb_spec n 1); auto.
    + destruct (Nat.ltb_spec (length l) 2); auto. exfalso; apply H; exists l; auto.
Qed.
Lemma check_2d_spec : forall o,
  (valid_2d o -> (_ <- check_dtype_frame_or_array o ;; check_ndim_shape_2d o) = Ok tt) /\
  (~ valid_2d o -> (_ <- check_dtype_frame_or_array o ;; check_ndim_shape_2d o) = Raise ValueError).
Proof.
  intros o; split.
  - intros [a [[->|[names ->]] H]]; unfold check_ndim_shape_2d;
      cbn [check_dtype_frame_or_array bind ndim shape Nat.eqb negb]; destruct (Nat.ltb_spec (ncol a) 2); auto; lia.
  - intros H. unfold check_ndim_shape_2d.
    destruct o as [c|l|a|n|l|names a|]; cbn [check_dtype_frame_or_array bind ndim shape]; auto; cbn [Nat.eqb negb]; auto.
    + destruct (Nat.ltb_spec (ncol a) 2); auto. exfalso; apply H; exists a; auto.
    + destruct (Nat.eqb_spec n 2); auto.
    + destruct (Nat.ltb_spec (ncol a) 2); auto. exfalso; apply H; exists a; split; eauto.
Qed.
Lemma valid_1d_dec : forall o, valid_1d o \/ ~ valid_1d o.
Proof.
  intros o. assert (K : forall l, valid_1d (OArr1 l) <-> 2 <= length l).
  { intros l; split; [intros [l' [[E|E] H]]; [injection E as ->; auto|discriminate]|exists l; auto]. }
  assert (K' : forall l, valid_1d (OSeries l) <-> 2 <= length l).
  { intros l; split; [intros [l' [[E|E] H]]; [discriminate|injection E as ->; auto]|exists l; auto]. }
  destruct o as [c|l|a|n|l|names a|];
    try (right; intros [l' [[E|E] H]]; discriminate); [rewrite K|rewrite K']; lia.
Qed.
Lemma valid_2d_dec : forall o, valid_2d o \/ ~ valid_2d o.
Proof.
  intros o. destruct o as [c|l|a|n|l|names a|];
    try (right; intros [a' [[E|[nm E]] H]]; discriminate).
  - destruct (le_lt_dec 2 (ncol a)); [left; exists a; auto|right].
    intros [a' [[E|[nm E]] H]]; [injection E as ->; lia|discriminate].
  - destruct (le_lt_dec 2 (ncol a)); [left; exists a; split; eauto|right].
    intros [a' [[E|[nm E]] H]]; [discriminate|injection E as ? ->; lia].
Qed.

Lemma all_valid_bound : forall valid names sig args kwargs b,
  (forall n v, lookup n b = Some v <-> gives sig args kwargs n v) ->
  (all_valid valid names sig args kwargs <->
   forall n o, In n names -> lookup n b = Some (AObj o) -> valid o).
Proof.
  intros valid names sig args kw b H; unfold all_valid; split; intros K n o Hn Hg;
    apply (K n o Hn); apply H; auto.
Qed.

(** The one-dimensional validator: when Python can match the arguments with the parameters, the function is called, with
    the very same arguments, if every named argument that is given and not None is valid; otherwise the call raises
    ValueError whatever the function is. *)
Theorem C72_one_dimensional : forall B sig names (func : pyfun B) args kwargs,
  proper sig kwargs -> matches sig args kwargs ->
  (all_valid valid_1d names sig args kwargs ->
   validate_series_or_1darray sig names func args kwargs = func args kwargs) /\
  (~ all_valid valid_1d names sig args kwargs ->
   validate_series_or_1darray sig names func args kwargs = Raise ValueError).
Proof.
  intros B sig names func args kw HP HM.
  destruct (bind_partial_ok sig args kw HP HM) as [b [E1 E2]].
  pose proof (all_valid_bound valid_1d names sig args kw b E2) as E3.
  destruct (check_named_spec _ _ check_1d_spec valid_1d_dec names b) as [C1 C2].
  unfold validate_series_or_1darray; rewrite E1; cbn [bind]; split; intros H.
  - rewrite C1; auto. apply E3; auto.
  - rewrite C2; auto. intros H'; apply H, E3, H'.
Qed.
Print Assumptions C72_one_dimensional.

(** The same for the two-dimensional validator. *)
Theorem C72_two_dimensional : forall B sig names (func : pyfun B) args kwargs,
  proper sig kwargs -> matches sig args kwargs ->
  (all_valid valid_2d names sig args kwargs ->
   validate_frame_or_2darray sig names func args kwargs = func args kwargs) /\
  (~ all_valid valid_2d names sig args kwargs ->
   validate_frame_or_2darray sig names func args kwargs = Raise ValueError).
Proof.
  intros B sig names func args kw HP HM.
  destruct (bind_partial_ok sig args kw HP HM) as [b [E1 E2]].
  pose proof (all_valid_bound valid_2d names sig args kw b E2) as E3.
  destruct (check_named_spec _ _ check_2d_spec valid_2d_dec names b) as [C1 C2].
  unfold validate_frame_or_2darray; rewrite E1; cbn [bind]; split; intros H.
  - rewrite C1; auto. apply E3; auto.
  - rewrite C2; auto. intros H'; apply H, E3, H'.
Qed.
Print Assumptions C72_two_dimensional.

(** Arguments Python cannot match with the parameters raise TypeError, before any validation. *)
Theorem C72_unmatched : forall B sig names (func : pyfun B) args kwargs,
  ~ matches sig args kwargs ->
  validate_series_or_1darray sig names func args kwargs = Raise TypeError /\
  validate_frame_or_2darray sig names func args kwargs = Raise TypeError.
Proof.
  intros B sig names func args kw H.
  unfold validate_series_or_1darray, validate_frame_or_2darray.
  rewrite bind_partial_fails by auto; auto.
Qed.
Print Assumptions C72_unmatched.

(** gap_statistic carries both decorators: the body runs exactly when labels and dist are both fine. *)
Theorem C72_both : forall B (func : pyfun B) args kwargs,
  NoDup (map fst kwargs) -> matches gap_statistic_sig args kwargs ->
  (all_valid valid_1d ["labels"%string] gap_statistic_sig args kwargs /\
   all_valid valid_2d ["dist"%string] gap_statistic_sig args kwargs ->
   decorated_gap_statistic func args kwargs = func args kwargs) /\
  (~ (all_valid valid_1d ["labels"%string] gap_statistic_sig args kwargs /\
      all_valid valid_2d ["dist"%string] gap_statistic_sig args kwargs) ->
   decorated_gap_statistic func args kwargs = Raise ValueError).
Proof.
  intros B func args kw ND HM.
  assert (HP : proper gap_statistic_sig kw).
  { split; auto. cbn. repeat constructor; simpl; intuition discriminate. }
  destruct (C72_one_dimensional B gap_statistic_sig ["labels"%string]
              (validate_frame_or_2darray gap_statistic_sig ["dist"%string] func) args kw HP HM) as [A1 A2].
  destruct (C72_two_dimensional B gap_statistic_sig ["dist"%string] func args kw HP HM) as [B1 B2].
  unfold decorated_gap_statistic; split.
  - intros [H1 H2]. rewrite A1, B1; auto.
  - intros H.
    destruct (bind_partial_ok _ args kw HP HM) as [b [E1 E2]].
    pose proof (all_valid_bound valid_1d ["labels"%string] _ args kw b E2) as E3.
    assert (D : all_valid valid_1d ["labels"%string] gap_statistic_sig args kw \/
                ~ all_valid valid_1d ["labels"%string] gap_statistic_sig args kw).
    { rewrite E3. destruct (lookup "labels" b) as [[|o]|] eqn:El.
      - left; intros n o [<-|[]] E; rewrite El in E; discriminate.
      - destruct (valid_1d_dec o) as [Ho|Ho].
        + left; intros n o' [<-|[]] E; rewrite El in E; injection E as <-; auto.
        + right; intros K; apply Ho, (K "labels"%string); simpl; auto.
      - left; intros n o [<-|[]] E; rewrite El in E; discriminate. }
    destruct D as [D|D]; [|apply A2; auto]. rewrite A1 by auto. apply B2. intros D'; apply H; auto.
Qed.
Print Assumptions C72_both.

(** Non-vacuous: a call with one argument by position and one by keyword passes, the same call with a one-element
    series does not, a missing argument is not validated, and an unknown keyword is a TypeError. *)
Example C72_passes : forall func : pyfun nat,
  decorated_mutual_info func [AObj (OArr1 [NaN; NaN])] [("y"%string, AObj (OSeries [NaN; PInf; NaN]))] =
  func [AObj (OArr1 [NaN; NaN])] [("y"%string, AObj (OSeries [NaN; PInf; NaN]))].
Proof. reflexivity. Qed.
Example C72_matches : matches mutual_info_sig [AObj (OArr1 [NaN; NaN])] [("y"%string, AObj (OSeries [NaN; PInf; NaN]))].
Proof.
  split; [simpl; lia|]. intros k v [E|[]]; injection E as <- <-; split; simpl; auto. intros [E|[]]; discriminate.
Qed.
Example C72_short_series : forall func : pyfun nat,
  decorated_mutual_info func [AObj (OArr1 [NaN; NaN])] [("y"%string, AObj (OSeries [NaN]))] = Raise ValueError.
Proof. reflexivity. Qed.
Example C72_none_not_validated : forall func : pyfun nat,
  decorated_mutual_info func [AObj (OArr1 [NaN; NaN]); ANone] [] = func [AObj (OArr1 [NaN; NaN]); ANone] [].
Proof. reflexivity. Qed.
Example C72_unknown_keyword : forall func : pyfun nat,
  decorated_mutual_info func [AObj (OSeries [])] [("z"%string, ANone)] = Raise TypeError.
Proof. reflexivity. Qed.

(* ------------------------------------------------------------------ *)
(** ** logger *)

Lemma remove_all : forall hs v n o d,
  fold_left (fun g h => remove_handler h g) hs (mkLogger v hs n o d) = mkLogger v [] n o d.
Proof.
  induction hs as [|h t IH]; intros v n o d; simpl; auto.
  unfold remove_handler at 2; cbn [handlers remove_first]. rewrite Nat.eqb_refl.
  unfold set_handlers; cbn. apply IH.
Qed.

Definition file_part (f : bool) (p : string) (v : Z) (n : nat) : list handler :=
  if f then [mkHandler (S n) (LogFile p) v] else [].
Lemma log_two : forall root v f p n l o d fr,
  log root l (mkLogger v (mkHandler n Console v :: file_part f p v n) fr o d) =
  mkLogger v (mkHandler n Console v :: file_part f p v n) fr (o ++ lines (threshold root v) f p l) d.
Proof.
  intros root v f p n l o d fr. unfold log, lines, threshold; cbn [level handlers fresh out distance_loaded].
  destruct (Z.eqb_spec v 0) as [->|Hv].
  - destruct (Z.leb_spec root l) as [H1|H1].
    + destruct (Z.leb_spec (Z.max root 0) l) as [H2|H2].
      * f_equal. f_equal. cbn. destruct (Z.leb_spec 0 l); [|lia]. cbn.
        destruct f; cbn; auto. destruct (Z.leb_spec 0 l); [|lia]. reflexivity.
      * f_equal. f_equal. cbn. destruct (Z.leb_spec 0 l); [lia|]. cbn.
        destruct f; cbn; auto. destruct (Z.leb_spec 0 l); [lia|]. reflexivity.
    + destruct (Z.leb_spec (Z.max root 0) l) as [H2|H2]; [lia|]. rewrite app_nil_r; reflexivity.
  - destruct (Z.leb_spec v l) as [H1|H1].
    + f_equal. f_equal. cbn. destruct (Z.leb_spec v l); [|lia]. cbn.
      destruct f; cbn; auto. destruct (Z.leb_spec v l); [|lia]. reflexivity.
    + rewrite app_nil_r; reflexivity.
Qed.

Lemma configure_eq : forall root can v f p g,
  (f = true -> can p = true) ->
  configure_logger root can v f p g =
  (mkLogger v (mkHandler (fresh g) Console v :: file_part f p v (fresh g))
     (if f then S (S (fresh g)) else S (fresh g))
     (out g ++ lines (threshold root v) f p INFO) (distance_loaded g), Ok tt).
Proof.
  intros root can v f p [l hs n o d] H.
  unfold configure_logger, set_level; cbn [handlers fresh out distance_loaded level].
  rewrite remove_all. unfold new_handler; cbn [handlers fresh out distance_loaded level].
  unfold add_handler; cbn [handlers existsb]. unfold set_handlers; cbn [handlers fresh out distance_loaded level app].
  destruct f.
  - rewrite (H eq_refl). cbn [existsb handlers hid]. 
    replace (Nat.eqb n (S n)) with false by (symmetry; apply Nat.eqb_neq; lia). cbn [orb app].
    rewrite <- (log_two root v true p n INFO o d (S (S n))). reflexivity.
  - rewrite <- (log_two root v false p n INFO o d (S n)). reflexivity.
Qed.

(** Whatever happened before (other configurations, handlers added or removed, levels set, messages, imports), a
    configure_logger call that can open its file leaves exactly one console handler, a file handler exactly when asked
    for, everything at the given verbosity, and writes nothing except its own INFO line. *)
Theorem C73_state : forall root can ops g0 v f p,
  (f = true -> can p = true) ->
  let before := log_run root can ops g0 in
  let g := log_run root can (ops ++ [Configure v f p]) g0 in
  shown g = (Console, v) :: (if f then [(LogFile p, v)] else []) /\
  level g = v /\
  out g = out before ++ lines (threshold root v) f p INFO /\
  snd (configure_logger root can v f p before) = Ok tt.
Proof.
  intros root can ops g0 v f p H before g. unfold g, log_run; rewrite fold_left_app; cbn [fold_left log_step].
  change (fold_left (log_step root can) ops g0) with before.
  rewrite configure_eq by auto. cbn. destruct f; auto.
Qed.
Print Assumptions C73_state.

Lemma messages : forall root can v f p n ms o d fr,
  log_run root can (map Message ms) (mkLogger v (mkHandler n Console v :: file_part f p v n) fr o d) =
  mkLogger v (mkHandler n Console v :: file_part f p v n) fr (o ++ flat_map (lines (threshold root v) f p) ms) d.
Proof.
  intros root can v f p n ms; unfold log_run; induction ms as [|m ms IH]; intros o d fr;
    cbn [map fold_left log_step flat_map].
  - rewrite app_nil_r; auto.
  - rewrite log_two, IH, app_assoc; auto.
Qed.

(** After it, each later message is written once to the console, and once to the file if asked for, when its level
    reaches the verbosity, and not at all otherwise: repeated configuration never duplicates lines. *)
Theorem C73_messages_once : forall root can ops g0 v f p ms,
  (f = true -> can p = true) ->
  let g := log_run root can (ops ++ [Configure v f p]) g0 in
  out (log_run root can (map Message ms) g) = out g ++ flat_map (lines (threshold root v) f p) ms.
Proof.
  intros root can ops g0 v f p ms H g. unfold g, log_run; rewrite fold_left_app; cbn [fold_left log_step].
  rewrite configure_eq by auto. cbn [fst out].
  match goal with |- out (fold_left _ _ ?g) = _ => change (fold_left (log_step root can) (map Message ms) g)
    with (log_run root can (map Message ms) g) end.
  rewrite messages; reflexivity.
Qed.
Print Assumptions C73_messages_once.

(** When the log file cannot be opened the call raises, and the previous handlers are already gone: only the new console
    handler is left, at the new verbosity. *)
Theorem C73_unwritable_file : forall root can v p g,
  can p = false ->
  let r := configure_logger root can v true p g in
  snd r = Raise FileNotFoundError /\ shown (fst r) = [(Console, v)] /\ level (fst r) = v /\ out (fst r) = out g.
Proof.
  intros root can v p [l hs n o d] H r. unfold r, configure_logger, set_level.
  cbn [handlers fresh out distance_loaded level].
  rewrite remove_all. unfold new_handler; cbn [handlers fresh out distance_loaded level].
  unfold add_handler; cbn [handlers existsb]. rewrite H. cbn. auto.
Qed.
Print Assumptions C73_unwritable_file.

Lemma log_after_import : forall root v f p n l o d fr,
  log root l (mkLogger WARNING (mkHandler n Console v :: file_part f p v n) fr o d) =
  mkLogger WARNING (mkHandler n Console v :: file_part f p v n) fr (o ++ lines (Z.max WARNING v) f p l) d.
Proof.
  intros root v f p n l o d fr. unfold log, lines; cbn [level handlers fresh out distance_loaded].
  change (Z.eqb WARNING 0) with false; cbn iota.
  destruct (Z.leb_spec WARNING l) as [H1|H1].
  - destruct (Z.leb_spec (Z.max WARNING v) l) as [H2|H2].
    + f_equal. f_equal. cbn. destruct (Z.leb_spec v l); [|lia]. cbn.
      destruct f; cbn; auto. destruct (Z.leb_spec v l); [|lia]. reflexivity.
    + f_equal. f_equal. cbn. destruct (Z.leb_spec v l); [lia|]. cbn.
      destruct f; cbn; auto. destruct (Z.leb_spec v l); [lia|]. reflexivity.
  - destruct (Z.leb_spec (Z.max WARNING v) l) as [H2|H2]; [lia|]. rewrite app_nil_r; reflexivity.
Qed.

(** The verbosity is not respected when quantfinlib.distance is imported for the first time after the call: from then on
    only messages of level WARNING (30) or more are written, even if the verbosity was lower. *)
Theorem C73_import_of_distance : forall root can ops g0 v f p ms,
  (f = true -> can p = true) ->
  distance_loaded (log_run root can ops g0) = false ->
  let g := log_run root can (ops ++ [Configure v f p; ImportDistance]) g0 in
  out (log_run root can (map Message ms) g) = out g ++ flat_map (lines (Z.max 30 v) f p) ms.
Proof.
  intros root can ops g0 v f p ms H HD g. unfold g, log_run; rewrite fold_left_app; cbn [fold_left log_step].
  rewrite configure_eq by auto. cbn [fst].
  fold (log_run root can ops g0). rewrite HD. unfold import_distance; cbn [distance_loaded handlers fresh out level].
  generalize (out (log_run root can ops g0) ++ lines (threshold root v) f p INFO) as o.
  generalize (if f then S (S (fresh (log_run root can ops g0))) else S (fresh (log_run root can ops g0))) as fr.
  intros fr o. cbn [out]. revert o. induction ms as [|m ms IH]; intros o; cbn [map fold_left log_step flat_map].
  - rewrite app_nil_r; auto.
  - rewrite log_after_import, IH, <- app_assoc; auto.
Qed.
Print Assumptions C73_import_of_distance.

(** So "after configure_logger(INFO), INFO messages are shown" is false of the library. *)
Theorem C73_import_of_distance_refuted : exists ops,
  ops = [Configure INFO false "quantfinlib.log"; ImportDistance] /\
  forall root can,
  let g := log_run root can ops initial in
  out (log_run root can [Message INFO] g) = out g.
Proof.
  eexists; split; [reflexivity|]. intros root can. cbv zeta.
  pose proof (C73_import_of_distance root can [] initial INFO false "quantfinlib.log" [INFO]
    (fun E => False_ind _ (diff_false_true E)) eq_refl) as H.
  cbv zeta in H. cbn [app] in H. cbn [map] in H. rewrite H. apply app_nil_r.
Qed.
Print Assumptions C73_import_of_distance_refuted.

(** If the module was imported before the call, importing it again changes nothing. *)
Theorem C73_imported_before : forall root can ops g0 v f p,
  distance_loaded (log_run root can ops g0) = true ->
  log_run root can (ops ++ [Configure v f p; ImportDistance]) g0 = log_run root can (ops ++ [Configure v f p]) g0.
Proof.
  intros root can ops g0 v f p H. unfold log_run in *; rewrite !fold_left_app; cbn [fold_left log_step].
  unfold import_distance.
  assert (D : distance_loaded (fst (configure_logger root can v f p (fold_left (log_step root can) ops g0))) = true).
  { destruct (fold_left (log_step root can) ops g0) as [l hs n o d]; cbn in H; subst d.
    destruct f; [destruct (can p) eqn:E|].
    - rewrite configure_eq by auto; reflexivity.
    - unfold configure_logger, set_level; cbn [handlers fresh out distance_loaded level].
      rewrite remove_all. unfold new_handler; cbn [handlers fresh out distance_loaded level].
      unfold add_handler; cbn [handlers existsb]. rewrite E. reflexivity.
    - rewrite configure_eq by discriminate; reflexivity. }
  rewrite D; auto.
Qed.
Print Assumptions C73_imported_before.

Example C73_twice_then_warn :
  out (log_run 30 (fun _ => true) [Configure 10 true "a.log"; UserAdds (Custom 7) 0; Configure 30 true "b.log";
                                   Message 20; Message 40] initial) =
  [(Console, 20%Z); (LogFile "a.log", 20%Z); (Console, 40%Z); (LogFile "b.log", 40%Z)].
Proof. reflexivity. Qed.

(* ------------------------------------------------------------------ *)
(** ** data sets *)

Lemma documented_iff : forall old new, documented old new <-> lookup old treasury_names = Some new.
Proof.
  intros old new; split.
  - intros [[n H|n H]|[-> ->]]; [| |reflexivity];
      repeat (destruct H as [<-|H]; [reflexivity|]); contradiction.
  - intros H. apply lookup_in in H. cbn in H.
    assert (M : forall n, In n ["1"; "2"; "3"; "4"; "6"]%string ->
                 (n ++ " Mo")%string = old -> (n ++ "m")%string = new -> documented old new)
      by (intros n Hn <- <-; left; constructor; auto).
    assert (Y : forall n, In n ["1"; "2"; "3"; "5"; "7"; "10"; "20"; "30"]%string ->
                 (n ++ " Yr")%string = old -> (n ++ "y")%string = new -> documented old new)
      by (intros n Hn <- <-; left; constructor; auto).
    destruct H as [H|H]; [injection H as <- <-; right; auto|].
    repeat (destruct H as [H|H];
      [injection H as <- <-;
       first [ refine (M _ _ eq_refl eq_refl); simpl; tauto
             | apply (M "1"%string); [simpl; tauto|reflexivity|reflexivity]
             | apply (M "2"%string); [simpl; tauto|reflexivity|reflexivity]
             | apply (M "3"%string); [simpl; tauto|reflexivity|reflexivity]
             | apply (M "4"%string); [simpl; tauto|reflexivity|reflexivity]
             | apply (M "6"%string); [simpl; tauto|reflexivity|reflexivity]
             | apply (Y "1"%string); [simpl; tauto|reflexivity|reflexivity]
             | apply (Y "2"%string); [simpl; tauto|reflexivity|reflexivity]
             | apply (Y "3"%string); [simpl; tauto|reflexivity|reflexivity]
             | apply (Y "5"%string); [simpl; tauto|reflexivity|reflexivity]
             | apply (Y "7"%string); [simpl; tauto|reflexivity|reflexivity]
             | apply (Y "10"%string); [simpl; tauto|reflexivity|reflexivity]
             | apply (Y "20"%string); [simpl; tauto|reflexivity|reflexivity]
             | apply (Y "30"%string); [simpl; tauto|reflexivity|reflexivity] ]|]).
    contradiction.
Qed.
Definition new_name (old : string) : string :=
  match lookup old treasury_names with Some n => n | None => old end.
Lemma renamed_iff : forall old new, renamed old new <-> new = new_name old.
Proof.
  intros old new; unfold renamed, new_name. setoid_rewrite documented_iff.
  destruct (lookup old treasury_names) as [n|] eqn:E; split.
  - intros [H|[H _]]; [injection H; auto|exfalso; apply (H n); auto].
  - intros ->; auto.
  - intros [H|[_ H]]; [discriminate|auto].
  - intros ->; right; split; auto. intros n H; discriminate.
Qed.

(** load_treasury_rates keeps the index with its name, the rows, the number and order of the columns and all values, and
    renames each column as documented. *)
Theorem C74_treasury : forall L V C (read_csv : C -> res (table L V)) fs c t,
  fs treasury_path = Some c -> read_csv c = Ok t ->
  exists t', load_treasury_rates C read_csv fs = Ok t' /\
    index_name t' = index_name t /\ rows t' = rows t /\ length (columns t') = length (columns t) /\
    forall k old data, nth_error (columns t) k = Some (old, data) ->
      exists new, nth_error (columns t') k = Some (new, data) /\ renamed old new.
Proof.
  intros L V C read fs c t H1 H2. unfold load_treasury_rates, load. rewrite H1, H2; cbn [bind].
  eexists; split; [reflexivity|]. cbn. split; [|split; [|split]]; auto.
  - apply map_length.
  - intros k old data H. exists (new_name old); split; [|apply renamed_iff; auto].
    rewrite nth_error_map, H. reflexivity.
Qed.
Print Assumptions C74_treasury.

(** Renaming is unambiguous ... *)
Theorem C74_one_name : forall old n1 n2, renamed old n1 -> renamed old n2 -> n1 = n2.
Proof. intros old n1 n2; rewrite !renamed_iff; congruence. Qed.
Print Assumptions C74_one_name.

Lemma new_name_inj : forall a b, a <> b -> new_name a = new_name b -> documented a b \/ documented b a.
Proof.
  intros a b Hab; unfold new_name.
  destruct (lookup a treasury_names) as [x|] eqn:Ea; destruct (lookup b treasury_names) as [y|] eqn:Eb; intros E.
  - exfalso; subst y. apply lookup_in in Ea, Eb. cbn in Ea, Eb.
    repeat (destruct Ea as [Ea|Ea]; [injection Ea as <- <-;
      repeat (destruct Eb as [Eb|Eb]; [first [discriminate | injection Eb as <-; congruence]|]); contradiction|]).
    contradiction.
  - left; apply documented_iff; rewrite Ea, E; auto.
  - right; apply documented_iff; rewrite Eb, E; auto.
  - exfalso; auto.
Qed.
(** ... and distinct columns stay distinct unless the file has both the old and the new name of one maturity. *)
Theorem C74_no_merge : forall L V C (read_csv : C -> res (table L V)) fs c t t',
  fs treasury_path = Some c -> read_csv c = Ok t -> load_treasury_rates C read_csv fs = Ok t' ->
  NoDup (map fst (columns t)) ->
  (NoDup (map fst (columns t')) <->
   ~ exists old new, documented old new /\ In old (map fst (columns t)) /\ In new (map fst (columns t))).
Proof.
  intros L V C read fs c t t' H1 H2 H3 ND.
  unfold load_treasury_rates, load in H3. rewrite H1, H2 in H3; cbn [bind] in H3. injection H3 as <-.
  unfold rename_columns; cbn [columns]. rewrite map_map; cbn [fst].
  assert (E : map (fun c : string * list V => match lookup (fst c) treasury_names with Some n => n | None => fst c end)
                (columns t) = map new_name (map fst (columns t))) by (rewrite map_map; reflexivity).
  rewrite E. clear E. generalize dependent (map fst (columns t)). clear. intros names ND. split.
  - intros N [old [new [HD [Ho Hn]]]].
    assert (Hne : old <> new).
    { intros ->. apply documented_iff, lookup_in in HD. cbn in HD.
      repeat (destruct HD as [HD|HD]; [injection HD as <-; discriminate|]); contradiction. }
    assert (E1 : new_name old = new) by (unfold new_name; apply documented_iff in HD; rewrite HD; auto).
    assert (E2 : new_name new = new).
    { unfold new_name. destruct (lookup new treasury_names) as [z|] eqn:E; auto. exfalso.
      apply documented_iff, lookup_in in HD. apply lookup_in in E. cbn in HD, E.
      repeat (destruct HD as [HD|HD]; [injection HD as <- <-;
        repeat (destruct E as [E|E]; [discriminate|]); contradiction|]). contradiction. }
    clear HD. induction names as [|a l IH]; [contradiction|]. simpl in N.
    inversion N as [|? ? Na Nl]; subst. inversion ND as [|? ? Ma Ml]; subst.
    destruct Ho as [->|Ho]; destruct Hn as [Hn|Hn].
    + congruence.
    + apply Na. rewrite <- E2. apply in_map; auto.
    + apply Na. subst a. rewrite E2. apply in_map_iff. exists old; auto.
    + auto.
  - intros HN. induction names as [|a l IH]; simpl; constructor.
    + inversion ND as [|? ? Ma Ml]; subst. intros H. apply in_map_iff in H. destruct H as [b [E Hb]].
      destruct (new_name_inj b a) as [D|D]; auto.
      * intros ->; auto.
      * apply HN; exists b, a; simpl; auto.
      * apply HN; exists a, b; simpl; auto.
    + inversion ND; subst. apply IH; auto. intros [o [n [D [Ho Hn]]]]. apply HN; exists o, n; simpl; auto.
Qed.
Print Assumptions C74_no_merge.

(** Each loader reads one file: FileNotFoundError when it is missing, and otherwise the outcome of reading it. *)
Theorem C74_files : forall L V C (read_csv : C -> res (table L V)) fs,
  (fs "quantfinlib/datasets/resources/vix_ohlc.csv.gz"%string = None -> load_vix C read_csv fs = Raise FileNotFoundError) /\
  (forall c, fs "quantfinlib/datasets/resources/vix_ohlc.csv.gz"%string = Some c -> load_vix C read_csv fs = read_csv c) /\
  (fs "quantfinlib/datasets/resources/multi_index_close.csv.gz"%string = None ->
     load_equity_indices C read_csv fs = Raise FileNotFoundError) /\
  (forall c, fs "quantfinlib/datasets/resources/multi_index_close.csv.gz"%string = Some c ->
     load_equity_indices C read_csv fs = read_csv c) /\
  (fs "quantfinlib/datasets/resources/daily_treasury_rates.csv.gz"%string = None ->
     load_treasury_rates C read_csv fs = Raise FileNotFoundError) /\
  (forall c e, fs "quantfinlib/datasets/resources/daily_treasury_rates.csv.gz"%string = Some c ->
     read_csv c = Raise e -> load_treasury_rates C read_csv fs = Raise e).
Proof.
  intros L V C read fs.
  unfold load_vix, load_equity_indices, load_treasury_rates, load, vix_path, multi_index_path, treasury_path.
  repeat split; intros.
  - rewrite H; auto.
  - rewrite H; auto.
  - rewrite H; auto.
  - rewrite H; auto.
  - rewrite H; auto.
  - rewrite H, H0; auto.
Qed.
Print Assumptions C74_files.

Example C74_renames : forall data1 data2 data3 : list nat,
  load_treasury_rates unit (fun _ => Ok (mkTable (Some "Date"%string) [1; 2]
     [("1 Mo"%string, data1); ("1.5 Month"%string, data2); ("10 Yr"%string, data3)])) (fun _ => Some tt) =
  Ok (mkTable (Some "Date"%string) [1; 2] [("1m"%string, data1); ("1.5 Month"%string, data2); ("10y"%string, data3)]).
Proof. reflexivity. Qed.

(* ------------------------------------------------------------------ *)
(** ** annotations *)

Lemma dtype_eqb_eq : forall a b, dtype_eqb a b = true <-> a = b.
Proof.
  intros a b; destruct a, b; simpl; split; intros H; try discriminate; auto;
    try (apply Nat.eqb_eq in H; subst; auto; fail); try (injection H as ->; apply Nat.eqb_refl).
Qed.

Lemma fits_length : forall s ex, Forall2 fits s ex -> length ex = length s.
Proof. intros s ex H; induction H; simpl; auto. Qed.
Lemma check_extents_ok : forall s ex, Forall2 fits s ex -> check_extents s ex = Ok tt.
Proof.
  intros s ex H; induction H as [|d e s ex Hd _ IH]; auto. simpl.
  destruct Hd as [->| ->]; auto. rewrite Z.eqb_refl; auto.
Qed.
Lemma check_extents_cases : forall s ex, length ex = length s ->
  (check_extents s ex = Ok tt /\ Forall2 fits s ex) \/
  (check_extents s ex = Raise TypeError) \/ (check_extents s ex = Raise ValueError /\ In EBad ex).
Proof.
  induction s as [|d s IH]; intros [|e ex] HL; try discriminate; simpl.
  - left; split; auto.
  - injection HL as HL. destruct (IH ex HL) as [[E F]|[E|[E F]]]; destruct e as [|z|]; try rewrite E; auto 10.
    + left; split; auto. constructor; auto. left; auto.
    + destruct (Z.eqb_spec (Z.of_nat d) z); [left|right; left; auto].
      split; auto. constructor; auto. right; subst; auto.
    + destruct (Z.eqb (Z.of_nat d) z); auto.
    + destruct (Z.eqb (Z.of_nat d) z); auto.
Qed.

Lemma can_cast_iff : forall a b, can_cast a b = true <-> castable a b.
Proof.
  intros a b. unfold castable. split.
  - destruct a as [|m|m|m| |k], b as [|n|n|n| |j]; cbn [can_cast]; intros H; try discriminate H; rewrite ?Nat.leb_le, ?Nat.ltb_lt, ?Nat.eqb_eq, ?Nat.min_le_iff in H;
      first [ left; reflexivity
            | right; left; split; [reflexivity|]; solve [left; reflexivity | right; exists n; tauto]
            | subst; right; right; left; solve [eexists; split; reflexivity]
            | right; right; right; exists m, n; solve [tauto] ].
  - intros [->|[[-> H]|[(k & -> & ->)|(m & n & H)]]].
    + destruct a; reflexivity.
    + destruct H as [->|[n H]]; [reflexivity|]. repeat destruct H as [H|H]; subst b; reflexivity.
    + apply Nat.eqb_refl.
    + destruct H as [[H E]|[[H E]|[H E]]].
      * repeat destruct E as [E|E]; destruct E as [-> ->]; apply Nat.leb_le; exact H.
      * destruct E as [-> ->]. apply Nat.ltb_lt; exact H.
      * destruct E as [[->| ->] ->]; apply Nat.leb_le, Nat.min_le_iff; tauto.
Qed.
(** The array annotation returns the same value exactly for arrays that fit the declaration; everything else is a
    TypeError (given a readable declaration). *)
Theorem C85_array : forall sh dt v, readable sh ->
  (array_fits sh dt v -> validate_numpy_array sh dt v = Ok v) /\
  (~ array_fits sh dt v -> validate_numpy_array sh dt v = Raise TypeError).
Proof.
  intros sh dt v HR. split.
  - intros [id [t [s [-> [H1 H2]]]]]. unfold validate_numpy_array.
    replace (match dt with None => false | Some d => negb (can_cast t d) end) with false
      by (destruct dt as [d|]; auto; rewrite (proj2 (can_cast_iff t d) (H1 d eq_refl)); auto).
    destruct sh as [ex|]; auto. specialize (H2 ex eq_refl).
    rewrite (fits_length _ _ H2), Nat.eqb_refl; cbn [negb]. rewrite check_extents_ok by auto. reflexivity.
  - intros H. destruct v as [id t s|id cols n|id t n|id]; auto. unfold validate_numpy_array.
    destruct (match dt with None => false | Some d => negb (can_cast t d) end) eqn:E; auto.
    destruct sh as [ex|].
    + destruct (Nat.eqb_spec (length ex) (length s)) as [HL|HL]; auto. cbn [negb].
      destruct (check_extents_cases s ex HL) as [[E1 F]|[E1|[E1 F]]].
      * exfalso; apply H; exists id, t, s; split; auto. split.
        -- intros d ->. apply can_cast_iff. destruct (can_cast t d); auto; discriminate.
        -- intros ex' Ee; injection Ee as <-; auto.
      * rewrite E1; auto.
      * exfalso; apply (HR ex); auto.
    + exfalso; apply H; exists id, t, s; split; auto. split.
      * intros d ->. apply can_cast_iff. destruct (can_cast t d); auto; discriminate.
      * intros; discriminate.
Qed.
Print Assumptions C85_array.

(** An annotation whose extent is not a number cannot accept anything at that position. *)
Theorem C85_array_unreadable : forall ex dt v,
  In EBad ex -> ~ (exists w, validate_numpy_array (AShape ex) dt v = Ok w).
Proof.
  intros ex dt v HB [w H]. destruct v as [id t s|id cols n|id t n|id]; try discriminate. unfold validate_numpy_array in H.
  destruct (match dt with None => false | Some d => negb (can_cast t d) end); try discriminate.
  destruct (Nat.eqb_spec (length ex) (length s)) as [HL|HL]; try discriminate. cbn [negb] in H.
  apply bind_ok in H; destruct H as [u [H _]]. clear w. revert ex HB HL H.
  induction s as [|d s IH]; intros [|e ex] HB HL H; try discriminate; [contradiction|].
  simpl in H. destruct e as [|z|]; try discriminate.
  - destruct HB as [HB|HB]; [discriminate|]. eapply IH; eauto.
  - destruct HB as [HB|HB]; [discriminate|]. destruct (Z.eqb (Z.of_nat d) z); [|discriminate]. eapply IH; eauto.
Qed.
Print Assumptions C85_array_unreadable.

Lemma check_columns_cases : forall cols decl, NoDup (map fst cols) ->
  (check_columns cols decl = Ok tt /\ forall c d, In (c, d) decl -> In (c, d) cols) \/
  (check_columns cols decl = Raise TypeError /\ ~ forall c d, In (c, d) decl -> In (c, d) cols).
Proof.
  intros cols decl ND; induction decl as [|[c d] t IH]; simpl.
  - left; split; auto. intros; contradiction.
  - destruct (lookup c cols) as [d'|] eqn:E.
    + destruct (dtype_eqb d' d) eqn:Ed; cbn [negb].
      * apply dtype_eqb_eq in Ed; subst. destruct IH as [[E1 F]|[E1 F]]; [left|right]; split; auto.
        -- intros c' d' [H|H]; auto. injection H as -> ->. apply lookup_in; auto.
      * right; split; auto. intros H. specialize (H c d (or_introl eq_refl)).
        apply in_lookup in H; auto. rewrite E in H; injection H as ->.
        assert (dtype_eqb d d = true) by (apply dtype_eqb_eq; auto). congruence.
    + right; split; auto. intros H. specialize (H c d (or_introl eq_refl)).
      apply lookup_none in E; apply E. apply in_map_iff; exists (c, d); auto.
Qed.

(** The DataFrame annotation: exactly the frames that fit, unchanged; anything else is a TypeError. *)
Theorem C85_frame : forall columns dt sh v, distinct_columns v ->
  (frame_fits columns dt sh v -> validate_dataframe columns dt sh v = Ok v) /\
  (~ frame_fits columns dt sh v -> validate_dataframe columns dt sh v = Raise TypeError).
Proof.
  intros columns dt sh v ND.
  destruct v as [id t s|id cols n|id t n|id];
    try (split; [intros [i [c [m [E _]]]]; discriminate|auto]).
  cbn in ND. unfold validate_dataframe.
  set (first := match columns with
                | Some decl => check_columns cols decl
                | None => match dt with
                          | Some d => if forallb (fun c => dtype_eqb (snd c) d) cols then Ok tt else Raise TypeError
                          | None => Ok tt end end).
  assert (HF : (first = Ok tt /\
                (forall decl, columns = Some decl -> forall c d, In (c, d) decl -> In (c, d) cols) /\
                (columns = None -> forall d, dt = Some d -> forall c t, In (c, t) cols -> t = d)) \/
               (first = Raise TypeError /\
                ~ ((forall decl, columns = Some decl -> forall c d, In (c, d) decl -> In (c, d) cols) /\
                   (columns = None -> forall d, dt = Some d -> forall c t, In (c, t) cols -> t = d)))).
  { unfold first. destruct columns as [decl|].
    - destruct (check_columns_cases cols decl ND) as [[E F]|[E F]]; [left|right]; split; auto.
      + split; [intros d' Ed; injection Ed as <-; auto|discriminate].
      + intros [H _]; apply F, (H decl); auto.
    - destruct dt as [d|]; [|left; repeat split; auto; intros; discriminate].
      destruct (forallb (fun c => dtype_eqb (snd c) d) cols) eqn:E; [left|right]; split; auto.
      + split; [intros; discriminate|]. intros _ d' Ed c t Hin; injection Ed as <-.
        rewrite forallb_forall in E. specialize (E _ Hin). apply dtype_eqb_eq in E; auto.
      + intros [_ H]. assert (forallb (fun c => dtype_eqb (snd c) d) cols = true); [|congruence].
        apply forallb_forall. intros [c t] Hin. apply dtype_eqb_eq. apply (H eq_refl d eq_refl c t Hin). }
  set (second := match sh with
                 | FTuple [r; c] => if extent_is n r && extent_is (length cols) c then Ok tt else Raise TypeError
                 | _ => Ok tt end).
  assert (HS : (second = Ok tt /\
                (forall r c, sh = FTuple [r; c] -> r = ENum (Z.of_nat n) /\ c = ENum (Z.of_nat (length cols)))) \/
               (second = Raise TypeError /\
                ~ (forall r c, sh = FTuple [r; c] -> r = ENum (Z.of_nat n) /\ c = ENum (Z.of_nat (length cols))))).
  { assert (X : forall d e, extent_is d e = true <-> e = ENum (Z.of_nat d)).
    { intros d e; destruct e as [|z|]; simpl; split; intros H; try discriminate.
      - apply Z.eqb_eq in H; subst; auto.
      - injection H as ->; apply Z.eqb_refl. }
    unfold second. destruct sh as [|[|r [|c [|x l]]]]; try (left; split; auto; intros; discriminate).
    destruct (extent_is n r && extent_is (length cols) c) eqn:E; [left|right]; split; auto.
    - intros r' c' Ee; injection Ee as <- <-. apply andb_true_iff in E; destruct E; split; apply X; auto.
    - intros H; destruct (H r c eq_refl) as [-> ->]. cbn in E. rewrite !Z.eqb_refl in E; discriminate. }
  split.
  - intros [id' [cols' [n' [E [H1 [H2 H3]]]]]]. injection E as <- <- <-.
    destruct HF as [[-> _]|[_ F]]; [|exfalso; apply F; auto]. cbn [bind].
    destruct HS as [[-> _]|[_ F]]; [|exfalso; apply F; auto]. reflexivity.
  - intros H. destruct HF as [[-> [H1 H2]]|[-> _]]; auto. cbn [bind].
    destruct HS as [[-> H3]|[-> _]]; auto. exfalso; apply H; exists id, cols, n; auto.
Qed.
Print Assumptions C85_frame.

(** Consequences a user may not expect: a "*" inside a two-element shape rejects every frame, although the
    documentation calls "*" arbitrary; and a whole-frame dtype is ignored when columns are declared. *)
Theorem C85_frame_wildcard_refuted : forall columns dt e v, 
  validate_dataframe columns dt (FTuple [EAny; e]) v = Raise TypeError /\
  validate_dataframe columns dt (FTuple [e; EAny]) v = Raise TypeError.
Proof.
  intros columns dt e v. destruct v as [id t s|id cols n|id t n|id]; auto. unfold validate_dataframe.
  assert (K : forall (r : res unit), (r = Ok tt \/ r = Raise TypeError) ->
     (_ <- r ;; (_ <- (if extent_is n EAny && extent_is (length cols) e then Ok tt else Raise TypeError) ;;
        Ok (VFrame id cols n))) = Raise TypeError /\
     (_ <- r ;; (_ <- (if extent_is n e && extent_is (length cols) EAny then Ok tt else Raise TypeError) ;;
        Ok (VFrame id cols n))) = Raise TypeError).
  { intros r [->| ->]; auto. cbn [bind extent_is andb]. rewrite andb_false_r; auto. }
  apply K. destruct columns as [decl|].
  - induction decl as [|[c d] t IH]; simpl; auto.
    destruct (lookup c cols) as [d'|]; auto. destruct (dtype_eqb d' d); auto.
  - destruct dt as [d|]; auto. destruct (forallb (fun c => dtype_eqb (snd c) d) cols); auto.
Qed.
Print Assumptions C85_frame_wildcard_refuted.
Theorem C85_frame_dtype_ignored : forall decl dt1 dt2 sh v,
  validate_dataframe (Some decl) dt1 sh v = validate_dataframe (Some decl) dt2 sh v.
Proof. reflexivity. Qed.
Print Assumptions C85_frame_dtype_ignored.
(** A shape with one or three entries is not checked at all. *)
Theorem C85_frame_other_shapes : forall columns dt l v, length l <> 2 ->
  validate_dataframe columns dt (FTuple l) v = validate_dataframe columns dt FAny v.
Proof.
  intros columns dt l v H. destruct l as [|a [|b [|c l]]]; auto. exfalso; apply H; reflexivity.
Qed.
Print Assumptions C85_frame_other_shapes.

(** The Series annotation. *)
Theorem C85_series : forall dt sh v,
  (series_fits dt sh v -> validate_series dt sh v = Ok v) /\
  (~ series_fits dt sh v -> validate_series dt sh v = Raise TypeError).
Proof.
  intros dt sh v. split.
  - intros [id [t [n [-> [H1 H2]]]]]. unfold validate_series.
    replace (match dt with None => false | Some d => negb (dtype_eqb t d) end) with false.
    2: { destruct dt as [d|]; auto. rewrite (H1 d eq_refl). replace (dtype_eqb d d) with true; auto.
         symmetry; apply dtype_eqb_eq; auto. }
    destruct H2 as [->| ->]; auto. rewrite Z.eqb_refl; auto.
  - intros H. destruct v as [id t s|id cols n|id t n|id]; auto. unfold validate_series.
    destruct (match dt with None => false | Some d => negb (dtype_eqb t d) end) eqn:E; auto.
    assert (HD : forall d, dt = Some d -> t = d).
    { intros d ->. apply dtype_eqb_eq. destruct (dtype_eqb t d); auto; discriminate. }
    destruct sh as [|z|]; auto.
    + exfalso; apply H; exists id, t, n; repeat split; auto. left; auto.
    + destruct (Z.eqb_spec (Z.of_nat n) z) as [Ez|Ez]; auto.
      exfalso; apply H; exists id, t, n; repeat split; auto. right; subst; auto.
Qed.
Print Assumptions C85_series.

(** The declared types of the splitters: fold bounds are integer arrays with two columns; an integer array is accepted
    where a float array is declared, not the other way round. *)
Example C85_bounds : bound_per_fold_type (VArray 0 (DInt 64) [5; 2]) = Ok (VArray 0 (DInt 64) [5; 2]) /\
  bound_per_fold_type (VArray 0 (DInt 64) [5; 3]) = Raise TypeError /\
  y_float_array (VArray 1 (DInt 64) [7]) = Ok (VArray 1 (DInt 64) [7]) /\
  index_type (VArray 1 (DFloat 64) [7]) = Raise TypeError /\
  x_array (VArray 2 DObject [3; 4]) = Ok (VArray 2 DObject [3; 4]) /\ x_array (VArray 2 DObject [3]) = Raise TypeError.
Proof. repeat split. Qed.
Example C85_frame_example :
  validate_dataframe (Some [("a"%string, DInt 64)]) None (FTuple [ENum 3; ENum 2])
    (VFrame 0 [("b"%string, DObject); ("a"%string, DInt 64)] 3) =
  Ok (VFrame 0 [("b"%string, DObject); ("a"%string, DInt 64)] 3).
Proof. reflexivity. Qed.
