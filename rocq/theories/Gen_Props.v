(** C124: several walk-forward runs of one object at the same time. *)
From Coq Require Import List ZArith Bool Arith Lia.
From Verif Require Import Base Split_Model Split_Proofs Kfold_Proofs Walk_Proofs Split_Props Walk_Props Gen_Model Gen_Spec.
Import ListNotations.
Open Scope Z_scope.

Lemma set_nth_length : forall {A} (l : list A) i x, length (set_nth i x l) = length l.
Proof. induction l as [|a l IH]; intros [|i] x; cbn; auto. Qed.
Lemma set_nth_same : forall {A} (l : list A) i x, (i < length l)%nat -> nth_error (set_nth i x l) i = Some x.
Proof. induction l as [|a l IH]; intros [|i] x H; cbn in *; try lia; auto. apply IH. lia. Qed.
Lemma set_nth_other : forall {A} (l : list A) i j x, i <> j -> nth_error (set_nth i x l) j = nth_error l j.
Proof. induction l as [|a l IH]; intros [|i] [|j] x H; cbn; try reflexivity; try lia. apply IH. lia. Qed.

(** next() neither looks at the object nor depends on it; it adds to the counter and may set the flag *)
Lemma next_indep : forall w c st o o', fst (fst (wf_next w c st o)) = fst (fst (wf_next w c st o')) /\ snd (wf_next w c st o) = snd (wf_next w c st o').
Proof.
  intros w c [|s|] o o'; unfold wf_next.
  - destruct (_ <- _ ;; _); [|auto]. destruct (head w c a). auto.
  - destruct (get_last _); [|auto]. destruct (ws_xe s >=? a); [auto|]. destruct (wf_advance _ _ _); [|auto]. destruct (head w c a0). auto.
  - auto.
Qed.

Lemma play_app : forall w es fs sy, play w (es ++ fs) sy = (fst (play w es sy) ++ fst (play w fs (snd (play w es sy))), snd (play w fs (snd (play w es sy)))).
Proof.
  induction es as [|e es IH]; intros fs sy; [cbn; destruct (play w fs sy); reflexivity|]. cbn [app play]. destruct (act w e sy) as [r sy1]. rewrite IH. destruct (play w es sy1) as [l sy2]. reflexivity.
Qed.

Lemma gens_length : forall w es sy, length (y_gens (snd (play w es sy))) = (length (y_gens sy) + length (calls es))%nat.
Proof.
  induction es as [|e es IH]; intros sy; [cbn; lia|]. cbn [play]. destruct (act w e sy) as [r sy1] eqn:E. specialize (IH sy1). destruct (play w es sy1) as [l sy2]. cbn [snd] in *. rewrite IH.
  destruct e as [c|i|i|]; cbn [act calls length] in *.
  - injection E as <- <-. cbn [y_gens]. rewrite app_length. cbn [length]. lia.
  - destruct (nth_error (y_gens sy) i) as [[c st]|]; [|injection E as <- <-; reflexivity]. destruct (wf_next w c st (y_obj sy)) as [[st' o'] a]. injection E as <- <-. cbn [y_gens]. rewrite set_nth_length. reflexivity.
  - destruct (nth_error (y_gens sy) i) as [[c st]|]; injection E as <- <-; [|reflexivity]. cbn [y_gens]. rewrite set_nth_length. reflexivity.
  - injection E as <- <-. reflexivity.
Qed.

Lemma alone : forall w i c es sy o st, nth_error (y_gens sy) i = Some (c, st) ->
  map snd (filter (fun x => about i (fst x)) (fst (play w es sy))) = map snd (fst (play w (map on_0 (filter (about i) es)) (mkSys o [(c, st)]))).
Proof.
  intros w i c es. induction es as [|e es IH]; intros sy o st H; [reflexivity|]. cbn [play filter].
  destruct (act w e sy) as [r sy1] eqn:E. destruct (about i e) eqn:A.
  - cbn [map play]. destruct e as [?|j|j|]; cbn [about] in A; try discriminate; apply Nat.eqb_eq in A; subst j; cbn [act on_0] in *; rewrite H in E; cbn [nth_error y_gens y_obj].
    + destruct (next_indep w c st (y_obj sy) o) as [N1 N2]. destruct (wf_next w c st (y_obj sy)) as [[st' o'] a]. destruct (wf_next w c st o) as [[st2 o2] a2]. cbn [fst snd] in N1, N2. subst st2 a2. injection E as <- <-. cbn [set_nth].
      assert (Hn : nth_error (y_gens (mkSys o' (set_nth i (c, st') (y_gens sy)))) i = Some (c, st')) by (cbn [y_gens]; apply set_nth_same, nth_error_Some; congruence).
      specialize (IH _ o2 st' Hn). destruct (play w es _) as [l sy2]. destruct (play w (map on_0 (filter (about i) es)) (mkSys o2 [(c, st')])) as [l' sy3]. cbn [fst filter about map snd] in *. rewrite Nat.eqb_refl. cbn [map snd]. f_equal. exact IH.
    + injection E as <- <-. cbn [set_nth].
      assert (Hn : nth_error (y_gens (mkSys (y_obj sy) (set_nth i (c, Ended) (y_gens sy)))) i = Some (c, Ended)) by (cbn [y_gens]; apply set_nth_same, nth_error_Some; congruence).
      specialize (IH _ o Ended Hn). destruct (play w es _) as [l sy2]. destruct (play w (map on_0 (filter (about i) es)) (mkSys o [(c, Ended)])) as [l' sy3]. cbn [fst filter about map snd] in *. rewrite Nat.eqb_refl. cbn [map snd]. f_equal. exact IH.
  - assert (Hn : nth_error (y_gens sy1) i = Some (c, st)).
    { destruct e as [d|j|j|]; cbn [about act] in *.
      - injection E as <- <-. cbn [y_gens]. rewrite nth_error_app1; [exact H|]. apply nth_error_Some. congruence.
      - apply Nat.eqb_neq in A. destruct (nth_error (y_gens sy) j) as [[c' st']|]; [|injection E as <- <-; exact H]. destruct (wf_next w c' st' (y_obj sy)) as [[st2 o'] a]. injection E as <- <-. cbn [y_gens]. rewrite set_nth_other by auto. exact H.
      - apply Nat.eqb_neq in A. destruct (nth_error (y_gens sy) j) as [[c' st']|]; injection E as <- <-; [|exact H]. cbn [y_gens]. rewrite set_nth_other by auto. exact H.
      - injection E as <- <-. exact H. }
    specialize (IH _ o st Hn). destruct (play w es sy1) as [l sy2]. cbn [fst filter]. cbn [fst] in IH |- *. rewrite A. exact IH.
Qed.

(** However the actions on the generators of one object are interleaved, each generator answers exactly as it would if it were the only one, on
    an object in any other state. *)
Theorem C124_independent : forall w o es1 c es2 o', let i := length (calls es1) in
  let log := fst (play w es2 (snd (play w (es1 ++ [Split c]) (mkSys o [])))) in
  map snd (filter (fun x => about i (fst x)) log) = map snd (fst (play w (map on_0 (filter (about i) es2)) (mkSys o' [(c, Fresh)]))).
Proof.
  intros w o es1 c es2 o' i log. apply alone. rewrite play_app. cbn [play act snd y_gens].
  rewrite nth_error_app2; rewrite gens_length; cbn [y_gens length]; [|subst i; lia]. subst i. replace (_ - _)%nat with 0%nat by lia. reflexivity.
Qed.
Print Assumptions C124_independent.

(* ------------------------------------------------------------------ *)
(** ** one generator *)
Definition tail_of (e : ending) (m : nat) : list reply := match e with Done => repeat (Ans Stop) m | Raised x => match m with O => [] | S m => Ans (Fail x) :: repeat (Ans Stop) m end | Running => [] end.

Lemma play_ended : forall w c m o, play w (repeat (Next 0) m) (mkSys o [(c, Ended)]) = (repeat (Next 0, Ans Stop) m, mkSys o [(c, Ended)]).
Proof. induction m as [|m IH]; intros o; [reflexivity|]. cbn [repeat play act nth_error y_gens wf_next y_obj set_nth]. rewrite IH. reflexivity. Qed.

Lemma map_repeat : forall {A B} (f : A -> B) x m, map f (repeat x m) = repeat (f x) m.
Proof. induction m; cbn; congruence. Qed.

(** from the loop head on: k + 1 times next() *)
Lemma play_loop : forall w c k s o, let g := call_groups c in let r := wf_loop w (seq 0 (x_rows (c_x c))) g k s o in
  forall st1 a1, head w c s = (st1, a1) -> let q := play w (repeat (Next 0) k) (mkSys o [(c, st1)]) in
  (ended (fst r) = Running -> exists p, Ans a1 :: map snd (fst q) = map (fun x => Ans (Offer x)) (yields (fst r)) ++ [Ans (Offer p)] /\ length (yields (fst r)) = k) /\
  (ended (fst r) <> Running -> (length (yields (fst r)) <= k)%nat /\ Ans a1 :: map snd (fst q) = map (fun x => Ans (Offer x)) (yields (fst r)) ++ tail_of (ended (fst r)) (S k - length (yields (fst r)))) /\
  y_obj (snd q) = snd r.
Proof.
  intros w c k. induction k as [|k IH]; intros s o g r st1 a1 Hh q; subst r q; cbn [wf_loop]; unfold head in Hh; cbv zeta in Hh; fold g in Hh;
  destruct (get_last g) as [l|e] eqn:El.
  - destruct (ws_te s <? l).
    + destruct (wf_pair w (seq 0 (x_rows (c_x c))) g s) as [pr|e]; injection Hh as <- <-; cbn.
      * split; [intros _; exists pr; auto|]. split; [congruence|reflexivity].
      * split; [congruence|]. split; [auto|reflexivity].
    + injection Hh as <- <-. cbn. split; [congruence|]. split; [auto|reflexivity].
  - injection Hh as <- <-. cbn. split; [congruence|]. split; [auto|reflexivity].
  - destruct (ws_te s <? l).
    + destruct (wf_pair w (seq 0 (x_rows (c_x c))) g s) as [pr|e] eqn:Ep; injection Hh as <- <-.
      * cbn [repeat play act nth_error y_gens y_obj wf_next]. fold g. rewrite El. destruct (ws_xe s >=? l).
        { cbn [set_nth]. rewrite play_ended. cbn [fst snd yields ended length map]. rewrite map_repeat. split; [congruence|]. split; [|reflexivity]. intros _. split; [lia|]. cbn [snd app tail_of]. replace (S (S k) - 1)%nat with (S k) by lia. reflexivity. }
        destruct (wf_advance w g s) as [s'|e] eqn:Ea.
        { destruct (head w c s') as [st2 a2] eqn:Eh. cbn [set_nth]. specialize (IH s' (mkWO (wo_n o + 1) (wo_fin o)) st2 a2 Eh). cbv zeta in IH. fold g in IH.
          destruct (play w (repeat (Next 0) k) _) as [lg sy2]. cbn [fst snd map yields ended] in *. destruct IH as (I1 & I2 & I3). split; [|split].
          - intros R. destruct (I1 R) as (p & P1 & P2). exists p. split; [cbn [app]; f_equal; exact P1|cbn [length]; lia].
          - intros R. destruct (I2 R) as [P1 P2]. cbn [length]. split; [lia|]. cbn [app]. f_equal. rewrite P2. do 2 f_equal.
          - exact I3. }
        { cbn [set_nth]. rewrite play_ended. cbn [fst snd yields ended length map]. rewrite map_repeat. split; [congruence|]. split; [|reflexivity]. intros _. split; [lia|]. cbn [snd app tail_of]. replace (S (S k) - 1)%nat with (S k) by lia. reflexivity. }
      * rewrite play_ended. cbn [fst snd yields ended length map]. rewrite map_repeat. split; [congruence|]. split; [|reflexivity]. intros _. split; [lia|]. reflexivity.
    + injection Hh as <- <-. rewrite play_ended. cbn [fst snd yields ended length map]. rewrite map_repeat. split; [congruence|]. split; [|reflexivity]. intros _. split; [lia|]. reflexivity.
  - injection Hh as <- <-. rewrite play_ended. cbn [fst snd yields ended length map]. rewrite map_repeat. split; [congruence|]. split; [|reflexivity]. intros _. split; [lia|]. reflexivity.
Qed.

(** A single generator asked k + 1 times gives the run of C09 to C14 ([wf_split] resumed k times): its pairs; then a further pair, or
    StopIteration, or the exception followed by StopIteration.  Counter and flag of the object are those of the run. *)
Theorem C124_one_run : forall w c k o, let r := wf_split w k (c_x c) (c_y c) (c_g c) o in let q := play w (repeat (Next 0) (S k)) (mkSys o [(c, Fresh)]) in
  let pairs := map (fun p => Ans (Offer p)) (yields (fst r)) in let rest := (S k - length (yields (fst r)))%nat in
  match ended (fst r) with
  | Running => exists p, map snd (fst q) = pairs ++ [Ans (Offer p)]
  | Done => map snd (fst q) = pairs ++ repeat (Ans Stop) rest /\ (1 <= rest)%nat
  | Raised e => map snd (fst q) = pairs ++ Ans (Fail e) :: repeat (Ans Stop) (rest - 1) /\ (1 <= rest)%nat
  end /\ y_obj (snd q) = snd r.
Proof.
  intros w c k o r q pairs rest. subst pairs rest r q. cbn [repeat play act nth_error y_gens y_obj wf_next]. unfold wf_split. destruct (basecv_split (c_x c) (c_y c) (c_g c)) as [u|e]; cbn [bind].
  - change (match c_g c with GArr g => g | _ => arange_groups (x_rows (c_x c)) end) with (call_groups c). destruct (wf_start w (call_groups c)) as [s|e].
    + destruct (head w c s) as [st1 a1] eqn:Eh. cbn [set_nth]. pose proof (play_loop w c k s o st1 a1 Eh) as P. cbv zeta in P. destruct (play w (repeat (Next 0) k) _) as [lg sy2]. cbn [fst snd map] in *. destruct P as (P1 & P2 & P3).
      split; [|exact P3]. destruct (ended (fst (wf_loop w _ _ k s o))) eqn:Ee.
      * destruct P2 as [P2 P4]; [congruence|]. split; [exact P4|lia].
      * destruct P2 as [P2 P4]; [congruence|]. split; [|lia]. rewrite P4. f_equal. cbn [tail_of]. destruct (S k - _)%nat eqn:Ek; [lia|]. cbn [Nat.sub]. rewrite Nat.sub_0_r. reflexivity.
      * destruct P1 as (p & P1 & _); [reflexivity|]. exists p. exact P1.
    + cbn [set_nth]. rewrite play_ended. cbn [fst snd map yields ended length app]. rewrite map_repeat. replace (S k - 0 - 1)%nat with k by lia. split; [split; [reflexivity|lia]|reflexivity].
  - cbn [set_nth]. rewrite play_ended. cbn [fst snd map yields ended length app]. rewrite map_repeat. replace (S k - 0 - 1)%nat with k by lia. split; [split; [reflexivity|lia]|reflexivity].
Qed.
Print Assumptions C124_one_run.

(* ------------------------------------------------------------------ *)
(** ** counting *)
Definition placed (c : wcall) (s : wfst) : Prop := nondecr (g_val (call_groups c)) /\ forall l, get_last (call_groups c) = Ok l -> ws_xs s <= l.

Lemma start_placed : forall w c s, (_ <- basecv_split (c_x c) (c_y c) (c_g c) ;; wf_start w (call_groups c)) = Ok s -> placed c s.
Proof.
  intros w c s H. apply bind_ok in H as (u & Eb & Es).
  assert (Hs : nondecr (g_val (call_groups c))).
  { unfold basecv_split in Eb. destruct (c_x c) eqn:Ex; [|discriminate]. unfold call_groups.
    destruct (c_g c) as [|g'|]; [apply arange_nondecr| |destruct (c_y c); discriminate].
    destruct (sortedb (g_val g')) eqn:E; [apply sortedb_spec; auto|destruct (c_y c); discriminate]. }
  split; [exact Hs|]. intros l Hl. unfold wf_start in Es. apply bind_ok in Es as [ts [Hts Es]]. apply bind_ok in Es as [a [_ Es]].
  apply bind_ok in Es as [a2 [_ Es]]. apply bind_ok in Es as [te [_ Es]]. apply bind_ok in Es as [xs [Hxs Es]].
  apply bind_ok in Es as [b [_ Es]]. apply bind_ok in Es as [b2 [_ Es]]. apply bind_ok in Es as [xe [_ Es]].
  injection Es as <-. simpl. apply getitem_ok in Hxs as [Hi ->].
  assert (Hser : is_series (g_kind (call_groups c)) = false) by (unfold get_last in Hl; destruct (is_series (g_kind (call_groups c))); congruence).
  rewrite (get_last_spec _ Hser ltac:(lia)) in Hl. injection Hl as <-. apply Hs; lia.
Qed.

Lemma advance_placed : forall w c s s', placed c s -> wf_advance w (call_groups c) s = Ok s' -> placed c s'.
Proof.
  intros w c s s' [Hs _] Ea. split; [exact Hs|]. intros l Hl. unfold wf_advance in Ea. apply bind_ok in Ea as [ts [_ Ea]]. apply bind_ok in Ea as [a [_ Ea]].
  apply bind_ok in Ea as [te [_ Ea]]. apply bind_ok in Ea as [b [_ Ea]]. apply bind_ok in Ea as [xs [Hxs Ea]].
  apply bind_ok in Ea as [d [_ Ea]]. apply bind_ok in Ea as [l' [_ Ea]]. apply bind_ok in Ea as [xe [_ Ea]].
  injection Ea as <-. simpl. apply getitem_ok in Hxs as [Hi ->].
  assert (Hser : is_series (g_kind (call_groups c)) = false) by (unfold get_last in Hl; destruct (is_series (g_kind (call_groups c))); congruence).
  rewrite (get_last_spec _ Hser ltac:(lia)) in Hl. injection Hl as <-. apply Hs; lia.
Qed.

Lemma pair_last : forall w c s pr l, (0 < x_rows (c_x c))%nat -> placed c s -> wf_pair w (seq 0 (x_rows (c_x c))) (call_groups c) s = Ok pr -> get_last (call_groups c) = Ok l ->
  (In (x_rows (c_x c) - 1)%nat (snd pr) <-> ws_xe s >= l).
Proof.
  intros w c s pr l Hn [_ Hx] Hp Hl. specialize (Hx l Hl). set (n := x_rows (c_x c)) in *. set (g := call_groups c) in *. unfold wf_pair in Hp.
  apply bind_ok in Hp as [tr0 [H1 Hp]]. apply mask_select_seq in H1 as [Hlen ->].
  apply bind_ok in Hp as [te1 [H1 Hp]]. apply mask_select_seq in H1 as [_ ->].
  assert (E : snd pr = filter (fun i => (gat g i >=? ws_xs s) && (gat g i <=? ws_xe s)) (seq 0 n)).
  { destruct (delta_pos (wf_embargo w)); [apply bind_ok in Hp as [tr1 [_ Hp]]|]; injection Hp as <-; reflexivity. }
  assert (Hlast : gat g (n - 1) = l).
  { unfold get_last in Hl. destruct (is_series (g_kind g)) eqn:Es; [discriminate|].
    assert (G := get_last_spec g Es ltac:(lia)). unfold get_last in G. rewrite Es, Hl, Hlen in G. congruence. }
  rewrite E, filter_In, in_seq, Hlast. split; [lia|]. intros; split; lia.
Qed.

(** what a paused generator has offered *)
Definition stands (w : wforward) (c : wcall) (st : gstate) (x : option (list nat * list nat)) : Prop :=
  match st with
  | Paused s => placed c s /\ exists l p, get_last (call_groups c) = Ok l /\ wf_pair w (seq 0 (x_rows (c_x c))) (call_groups c) s = Ok p /\ x = Some p
  | _ => x = None
  end.

Lemma head_stands : forall w c s st a, placed c s -> head w c s = (st, a) -> stands w c st (match a with Offer p => Some p | _ => None end).
Proof.
  intros w c s st a Hp H. unfold head in H. destruct (get_last (call_groups c)) as [l|] eqn:El; [|injection H as <- <-; reflexivity]. destruct (ws_te s <? l); [|injection H as <- <-; reflexivity].
  destruct (wf_pair _ _ _ _) as [pr|] eqn:Ep; injection H as <- <-; [|reflexivity]. split; [exact Hp|]. exists l, pr. auto.
Qed.

Lemma next_stands : forall w c st o st' o' a x, (0 < x_rows (c_x c))%nat -> stands w c st x -> wf_next w c st o = (st', o', a) ->
  stands w c st' (match a with Offer p => Some p | _ => None end) /\
  match x with
  | None => o' = o
  | Some p => wo_n o' = wo_n o + 1 /\ (wo_fin o' = true <-> wo_fin o = true \/ In (x_rows (c_x c) - 1)%nat (snd p))
  end.
Proof.
  intros w c st o st' o' a x Hn Hs H. destruct st as [|s|]; cbn [stands wf_next] in *.
  - subst x. destruct (_ <- _ ;; _) as [s|] eqn:Es; [|injection H as <- <- <-; split; reflexivity]. destruct (head w c s) as [st1 a1] eqn:Eh. injection H as <- <- <-. split; [|reflexivity]. exact (head_stands _ _ _ _ _ (start_placed _ _ _ Es) Eh).
  - destruct Hs as (Hp & l & p & El & Ep & ->). rewrite El in H. pose proof (pair_last w c s p l Hn Hp Ep El) as L. destruct (ws_xe s >=? l) eqn:Ex.
    + injection H as <- <- <-. split; [reflexivity|]. cbn [wo_n wo_fin]. split; [reflexivity|]. split; auto. intros _. right. apply L. lia.
    + assert (NL : ~ In (x_rows (c_x c) - 1)%nat (snd p)) by (rewrite L; lia). destruct (wf_advance w (call_groups c) s) as [s'|] eqn:Ea.
      * destruct (head w c s') as [st1 a1] eqn:Eh. injection H as <- <- <-. split; [exact (head_stands _ _ _ _ _ (advance_placed _ _ _ _ Hp Ea) Eh)|]. cbn [wo_n wo_fin]. tauto.
      * injection H as <- <- <-. split; [reflexivity|]. cbn [wo_n wo_fin]. tauto.
  - subst x. injection H as <- <- <-. split; reflexivity.
Qed.

Lemma calls_app : forall es fs, calls (es ++ fs) = calls es ++ calls fs.
Proof. induction es as [|[c|i|i|] es IH]; intros fs; cbn; rewrite ?IH; reflexivity. Qed.

Lemma inv : forall w o es, Forall (fun c => (0 < x_rows (c_x c))%nat) (calls es) -> let q := play w es (mkSys o []) in let log := rev (fst q) in
  map fst (y_gens (snd q)) = calls es /\
  (forall i c st, nth_error (y_gens (snd q)) i = Some (c, st) -> stands w c st (last_offer i log)) /\
  (forall i, (length (calls es) <= i)%nat -> last_offer i log = None) /\
  (forall i p, In (i, p) (used log) -> (i < length (calls es))%nat) /\
  wo_n (y_obj (snd q)) = wo_n o + Z.of_nat (length (used log)) /\
  (wo_fin (y_obj (snd q)) = true <-> wo_fin o = true \/ ends_reached (calls es) (used log)).
Proof.
  intros w o es. induction es as [|e es IH] using rev_ind; intros Hr.
  - cbn. split; [reflexivity|]. split; [intros [|i]; discriminate|]. split; [reflexivity|]. split; [intros i p []|]. split; [lia|]. split; auto. intros [H|(i & p & c & [] & _)]; exact H.
  - rewrite calls_app in *. apply Forall_app in Hr as [Hr Hr']. specialize (IH Hr). cbv zeta in IH |- *. rewrite play_app. destruct (play w es (mkSys o [])) as [l sy]. cbn [fst snd] in *. destruct IH as (I1 & I2 & I3 & I6 & I4 & I5).
    assert (LG : length (y_gens sy) = length (calls es)) by (rewrite <- I1, map_length; reflexivity).
    assert (Hrows : forall i c st, nth_error (y_gens sy) i = Some (c, st) -> (0 < x_rows (c_x c))%nat /\ nth_error (calls es) i = Some c).
    { intros i c st Hi. assert (nth_error (calls es) i = Some c) by (rewrite <- I1; rewrite nth_error_map, Hi; reflexivity). split; [|assumption]. rewrite Forall_forall in Hr. apply Hr. eapply nth_error_In; eauto. }
    cbn [play]. destruct (act w e sy) as [r sy1] eqn:E. cbn [fst snd]. rewrite rev_app_distr. cbn [rev app].
    assert (Mono : forall cs u, ends_reached (calls es) u -> ends_reached (calls es ++ cs) u).
    { intros cs u (i & p & c & P1 & P2 & P3). exists i, p, c. split; [exact P1|]. split; [|exact P3]. rewrite nth_error_app1; [exact P2|]. apply nth_error_Some. congruence. }
    destruct e as [d|j|j|]; cbn [act calls] in *; rewrite ?app_nil_r.
    + injection E as <- <-. cbn [y_gens y_obj last_offer about used]. split; [rewrite map_app, I1; reflexivity|]. split; [|split; [|split; [|split]]].
      * intros i c st Hi. destruct (Nat.lt_ge_cases i (length (y_gens sy))) as [L|L]; [rewrite nth_error_app1 in Hi by exact L; exact (I2 _ _ _ Hi)|]. rewrite nth_error_app2 in Hi by exact L. destruct (i - length (y_gens sy))%nat as [|m]; [|destruct m; discriminate]. injection Hi as <- <-. cbn [stands]. apply I3. lia.
      * intros i Hi. rewrite app_length in Hi. apply I3. lia.
      * intros i p Hp. specialize (I6 i p Hp). rewrite app_length. lia.
      * exact I4.
      * rewrite I5. split; (intros [H|H]; [left; exact H|right]); [apply Mono, H|]. destruct H as (i & p & c & P1 & P2 & P3). exists i, p, c. split; [exact P1|]. split; [|exact P3]. rewrite nth_error_app1 in P2 by exact (I6 i p P1). exact P2.
    + destruct (nth_error (y_gens sy) j) as [[c st]|] eqn:Ej.
      * destruct (wf_next w c st (y_obj sy)) as [[st' o'] a] eqn:En. injection E as <- <-. cbn [y_gens y_obj]. destruct (Hrows _ _ _ Ej) as [Rj Cj]. assert (Lj : (j < length (y_gens sy))%nat) by (apply nth_error_Some; congruence).
        destruct (next_stands _ _ _ _ _ _ _ _ Rj (I2 _ _ _ Ej) En) as [N1 N2]. split; [|split; [|split; [|split]]].
        -- rewrite <- I1. clear -Ej. revert j Ej. induction (y_gens sy) as [|b gs IH]; intros [|j] Ej; try discriminate; cbn in *; [injection Ej as ->; reflexivity|]. f_equal. apply IH, Ej.
        -- intros i c' st2 Hi. cbn [last_offer about]. destruct (Nat.eqb_spec i j) as [->|Ne].
           ++ rewrite set_nth_same in Hi by exact Lj. injection Hi as <- <-. destruct a; exact N1.
           ++ rewrite set_nth_other in Hi by auto. exact (I2 _ _ _ Hi).
        -- intros i Hi. cbn [last_offer about]. destruct (Nat.eqb_spec i j); [lia|]. apply I3, Hi.
        -- intros i p Hp. cbn [used] in Hp. destruct (last_offer j (rev l)); [destruct Hp as [Hp|Hp]; [injection Hp as <- _; lia|]|]; exact (I6 i p Hp) || apply (I6 i p Hp).
        -- cbn [used]. destruct (last_offer j (rev l)) as [p|] eqn:Lo.
           ++ destruct N2 as [N2 N3]. split; [cbn [length]; lia|]. rewrite N3, I5. split.
              ** intros [[H|(i & p' & c' & P1 & P2)]|H]; [auto| |].
                 { right. exists i, p', c'. split; [right; exact P1|exact P2]. }
                 { right. exists j, p, c. split; [left; reflexivity|]. auto. }
              ** intros [H|(i & p' & c' & P1 & P2 & P3)]; [auto|]. destruct P1 as [P1|P1].
                 { assert (i = j /\ p' = p) as [-> ->] by (split; congruence). assert (c' = c) by congruence. subst c'. auto. }
                 { left. right. exists i, p', c'. auto. }
           ++ subst o'. split; [exact I4|exact I5].
      * injection E as <- <-. apply nth_error_None in Ej. assert (Lo : last_offer j (rev l) = None) by (apply I3; lia). cbn [used]. rewrite Lo. split; [exact I1|]. split; [|split; [|auto]].
        -- intros i c st Hi. cbn [last_offer about]. destruct (Nat.eqb_spec i j) as [->|Ne]; [|exact (I2 _ _ _ Hi)]. assert (j < length (y_gens sy))%nat by (apply nth_error_Some; congruence). lia.
        -- intros i Hi. cbn [last_offer about]. destruct (Nat.eqb_spec i j); [reflexivity|]. apply I3, Hi.
    + destruct (nth_error (y_gens sy) j) as [[c st]|] eqn:Ej.
      * injection E as <- <-. cbn [y_gens y_obj used]. assert (Lj : (j < length (y_gens sy))%nat) by (apply nth_error_Some; congruence). split; [|split; [|split; [|auto]]].
        -- rewrite <- I1. clear -Ej. revert j Ej. induction (y_gens sy) as [|b gs IH]; intros [|j] Ej; try discriminate; cbn in *; [injection Ej as ->; reflexivity|]. f_equal. apply IH, Ej.
        -- intros i c' st2 Hi. cbn [last_offer about]. destruct (Nat.eqb_spec i j) as [->|Ne].
           ++ rewrite set_nth_same in Hi by exact Lj. injection Hi as <- <-. reflexivity.
           ++ rewrite set_nth_other in Hi by auto. exact (I2 _ _ _ Hi).
        -- intros i Hi. cbn [last_offer about]. destruct (Nat.eqb_spec i j); [reflexivity|]. apply I3, Hi.
      * injection E as <- <-. apply nth_error_None in Ej. cbn [used]. split; [exact I1|]. split; [|split; [|auto]].
        -- intros i c st Hi. cbn [last_offer about]. destruct (Nat.eqb_spec i j) as [->|Ne]; [|exact (I2 _ _ _ Hi)]. assert (j < length (y_gens sy))%nat by (apply nth_error_Some; congruence). lia.
        -- intros i Hi. cbn [last_offer about]. destruct (Nat.eqb_spec i j); [reflexivity|]. apply I3, Hi.
    + injection E as <- <-. cbn [used last_offer about]. auto 8.
Qed.

(** After any interleaving of runs of a new object, finished, failed, closed early or still waiting: get_n_splits is 0 until a generator has been
    asked for more after a pair that tests the last sample of its X; from then on it is the number of pairs, over all generators, after which
    more was asked for.  A pair at which the user stopped is not counted. *)
Theorem C124_count : forall w es, Forall (fun c => (0 < x_rows (c_x c))%nat) (calls es) ->
  let q := play w es (mkSys (mkWO 0 false) []) in let u := used (rev (fst q)) in
  (ends_reached (calls es) u -> wf_get_n_splits (y_obj (snd q)) = Z.of_nat (length u)) /\
  (~ ends_reached (calls es) u -> wf_get_n_splits (y_obj (snd q)) = 0).
Proof.
  intros w es Hr q u. destruct (inv w (mkWO 0 false) es Hr) as (_ & _ & _ & _ & I4 & I5). fold q in I4, I5. fold u in I4, I5. unfold wf_get_n_splits. cbn [wo_n wo_fin] in *. split.
  - intros H. rewrite (proj2 I5) by auto. lia.
  - intros H. destruct (wo_fin (y_obj (snd q))); [|reflexivity]. destruct (proj1 I5 eq_refl) as [?|?]; [discriminate|contradiction].
Qed.
Print Assumptions C124_count.

(** two runs over four samples, training window 2, test window 1, advanced in turn; the second is left at its second pair *)
Definition two : list event := let c := mkCall (XArr 4) YNone GNone in
  [Split c; Split c; Next 0; Next 1; Next 0; Count; Next 1; Next 0; Count; Close 1; Next 1; Count]%nat.
Example C124_example : let w := mkWF (DInt 0) (DInt 2) (DInt 1) Expanding None in let q := play w two (mkSys (mkWO 0 false) []) in
  map snd (fst q) = [Created; Created; Ans (Offer ([0; 1], [2])%nat); Ans (Offer ([0; 1], [2])%nat); Ans (Offer ([0; 1; 2], [3])%nat); Number 0;
    Ans (Offer ([0; 1; 2], [3])%nat); Ans Stop; Number 3; Closed; Ans Stop; Number 3] /\
  used (rev (fst q)) = [(0, ([0; 1; 2], [3])); (1, ([0; 1], [2])); (0, ([0; 1], [2]))]%nat.
Proof. split; vm_compute; reflexivity. Qed.
