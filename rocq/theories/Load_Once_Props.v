(** C127: no module is executed twice. *)
From Coq Require Import List Bool Arith Lia Permutation.
From Verif Require Import Base Load_Model Load_Spec Load_Props.
Import ListNotations.

Definition once (s : modules) : Prop := NoDup (running s ++ done s).
Lemma load_once : forall f m s s', load f m s = Some s' -> running s' = running s /\ (once s -> once s').
Proof.
  induction f as [|f IH]; intros m s s' L; [discriminate|]. cbn [load] in L. destruct (present m s) eqn:Em; [injection L as <-; auto|].
  destruct (match parent m with None => Some s | Some p => load f p s end) as [s1|] eqn:E1; [|discriminate].
  assert (P : running s1 = running s /\ (once s -> once s1)) by (destruct (parent m) as [p|]; [exact (IH p s s1 E1)|injection E1 as <-; auto]).
  destruct P as [R1 Q1]. destruct (present m s1) eqn:Em1; [injection L as <-; auto|].
  set (body := fun acc x => match acc with None => None | Some t => match load f x t with Some t' => if mem x (done t') then Some t' else None | None => None end end) in L.
  assert (B : forall l t t', fold_left body l (Some t) = Some t' -> running t' = running t /\ (once t -> once t')).
  { assert (Z : forall l, fold_left body l None = None) by (induction l; cbn; auto).
    induction l as [|z l IHl]; intros t t' E; cbn [fold_left] in E; [injection E as <-; auto|].
    unfold body at 2 in E. destruct (load f z t) as [t1|] eqn:E2; [|rewrite Z in E; discriminate]. destruct (mem z (done t1)); [|rewrite Z in E; discriminate].
    destruct (IHl t1 t' E) as [A1 A2]. destruct (IH z t t1 E2) as [B1 B2]. split; [congruence|auto]. }
  destruct (fold_left body (imports m) _) as [s2|] eqn:E2; [|discriminate]. injection L as <-. destruct (B _ _ _ E2) as [R2 Q2]. cbn [running] in R2.
  rewrite R2; cbn [tl running]. split; [exact R1|]. intros Q. unfold once; cbn [running done].
  assert (Q3 : once s2).
  { apply Q2. unfold once; cbn [running done]. cbn [app]. constructor; [|exact (Q1 Q)]. intros X. apply present_false in Em1. apply in_app_or in X. tauto. }
  unfold once in Q3. rewrite R2 in Q3. cbn [app] in Q3. eapply Permutation_NoDup; [apply Permutation_middle|exact Q3].
Qed.

(** Whatever is imported in whatever order, with repetitions: the code of each module runs at most once. *)
Theorem C127_once : forall f ms s, load_all f ms fresh_start = Some s -> NoDup (done s).
Proof.
  intros f ms s L.
  assert (G : forall ms s0 s, load_all f ms s0 = Some s -> running s0 = [] -> once s0 -> running s = [] /\ once s).
  { assert (Z : forall l, fold_left (fun acc m => match acc with None => None | Some t => load f m t end) l None = None) by (induction l; cbn; auto).
    clear. intros ms. induction ms as [|m l IH]; intros s0 s L Rn Q; unfold load_all in L; cbn [fold_left] in L; [injection L as <-; auto|].
    destruct (load f m s0) as [s1|] eqn:E.
    - destruct (load_once f m s0 s1 E) as [R1 Q1]. apply (IH s1 s L); [congruence|auto].
    - exfalso. revert L. clear. induction l; cbn; [discriminate|assumption]. }
  destruct (G ms fresh_start s L eq_refl (NoDup_nil _)) as [Rn Q]. unfold once in Q. rewrite Rn in Q. exact Q.
Qed.
Print Assumptions C127_once.
Example C127_once_example :
  match load_all 20 [distance; clustering; distance_matrix; clustering; sim; splits] fresh_start with Some s => length (done s) | None => 0 end = 28.
Proof. vm_compute. reflexivity. Qed.
