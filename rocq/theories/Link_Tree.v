(** Lemmas about trees and cut_tree. *)
From Coq Require Import Reals Lra String List Arith Lia Bool ZArith Permutation.
From Verif Require Import Base Num Sums Sim_Model Dist_Model Info_Model Feat_Model Clust_Model Link_Model.
Import ListNotations.
Open Scope R_scope.

Fixpoint inner (t : tree) : list tree := match t with Leaf _ => [] | Node l r h => Node l r h :: inner l ++ inner r end.
Definition inners (q : list tree) : list tree := flat_map inner q.
Definition sizes (q : list tree) : nat := fold_right (fun t s => (tree_size t + s)%nat) 0%nat q.
(** q is a node below t, or t *)
Inductive sub : tree -> tree -> Prop :=
| sub_refl : forall t, sub t t
| sub_left : forall q l r h, sub q l -> sub q (Node l r h)
| sub_right : forall q l r h, sub q r -> sub q (Node l r h).
Definition is_node (t : tree) : Prop := match t with Leaf _ => False | _ => True end.
(** children are not above their parents *)
Fixpoint mono (t : tree) : Prop :=
  match t with
  | Leaf _ => True
  | Node l r h => mono l /\ mono r /\ (is_node l -> height l <= h) /\ (is_node r -> height r <= h)
  end.

Lemma NoDup_app_remove_l : forall (A : Type) (a b : list A), NoDup (a ++ b) -> NoDup b.
Proof. induction a as [|x a IH]; intros b N; auto. cbn in N. inversion N; subst; auto. Qed.
Lemma NoDup_app_remove_r : forall (A : Type) (a b : list A), NoDup (a ++ b) -> NoDup a.
Proof. induction a as [|x a IH]; intros b N; [constructor|]. cbn in N. inversion N; subst. constructor; [|eauto]. intros H. apply H1. apply in_or_app. auto. Qed.
Lemma leaves_ne : forall t, leaves t <> [].
Proof. intros [i|l r h]; cbn [leaves]; [discriminate|]. revert r. induction l as [i|l1 IH1 l2 IH2 h']; intros r; cbn [leaves]; [discriminate|]. rewrite <- app_assoc. intros E. apply app_eq_nil in E. destruct E as [E E2].
  apply app_eq_nil in E2. destruct E2 as [E2 _]. apply (IH1 l2). rewrite E, E2. reflexivity. Qed.
Lemma leaf_in : forall t, exists i, In i (leaves t).
Proof. intros t. pose proof (leaves_ne t). destruct (leaves t) as [|i l]; [congruence|]. exists i. now left. Qed.
Lemma sub_trans : forall a b c, sub a b -> sub b c -> sub a c.
Proof. intros a b c H1 H2. revert a H1. induction H2; intros; auto; [apply sub_left|apply sub_right]; auto. Qed.
Lemma sub_leaves : forall q t, sub q t -> forall i, In i (leaves q) -> In i (leaves t).
Proof. induction 1; intros i Hi; auto; cbn [leaves]; apply in_or_app; auto. Qed.
Lemma sub_nodup : forall q t, sub q t -> NoDup (leaves t) -> NoDup (leaves q).
Proof. induction 1 as [|q l r h H IHsub|q l r h H IHsub]; intros N; auto; cbn [leaves] in N; apply IHsub. { eapply NoDup_app_remove_r; eauto. } { eapply NoDup_app_remove_l; eauto. } Qed.
Lemma nodup_app_disjoint : forall (A : Type) (a b : list A), NoDup (a ++ b) -> forall x, In x a -> In x b -> False.
Proof. induction a as [|y a IH]; intros b N x Ha Hb; [exact Ha|]. cbn in N. inversion N; subst. destruct Ha as [->|Ha]; [apply H1; apply in_or_app; auto|]. eapply IH; eauto. Qed.
Lemma inner_sub : forall t q, In q (inner t) <-> sub q t /\ is_node q.
Proof.
  induction t as [i|l IHl r IHr h]; intros q; cbn [inner].
  - split; [intros []|]. intros [H N]. inversion H; subst. exact N.
  - split.
    + intros [<-|H]; [split; [apply sub_refl|exact I]|]. apply in_app_or in H. destruct H as [H|H]; [apply IHl in H|apply IHr in H]; destruct H; split; auto; [apply sub_left|apply sub_right]; auto.
    + intros [H N]. inversion H; subst; [now left| |]; right; apply in_or_app; [left; apply IHl|right; apply IHr]; auto.
Qed.
Lemma sub_size : forall q t, sub q t -> (tree_size q <= tree_size t)%nat.
Proof. induction 1; cbn [tree_size]; lia. Qed.
Lemma inner_nodup : forall t, NoDup (leaves t) -> NoDup (inner t).
Proof.
  induction t as [i|l IHl r IHr h]; intros N; cbn [inner]; [constructor|]. cbn [leaves] in N. constructor.
  - intros H. apply in_app_or in H. destruct H as [H|H]; apply inner_sub in H; destruct H as [H _]; apply sub_size in H; cbn [tree_size] in H; lia.
  - assert (Nl : NoDup (inner l)) by (apply IHl; eapply NoDup_app_remove_r; eauto). assert (Nr : NoDup (inner r)) by (apply IHr; eapply NoDup_app_remove_l; eauto).
    assert (Dj : forall x, In x (inner l) -> In x (inner r) -> False).
    { intros x H1 H2. apply inner_sub in H1. apply inner_sub in H2. destruct (leaf_in x) as [i Hi].
      apply (nodup_app_disjoint _ _ _ N i); [eapply sub_leaves; [apply H1|exact Hi]|eapply sub_leaves; [apply H2|exact Hi]]. }
    clear - Nl Nr Dj. induction (inner l) as [|x a IH]; cbn; auto. inversion Nl; subst. constructor.
    + intros H. apply in_app_or in H. destruct H as [H|H]; [contradiction|]. apply (Dj x); [now left|auto].
    + apply IH; auto. intros y Hy. apply Dj. now right.
Qed.
(** two nodes that share an item: one is below the other *)
Lemma share : forall T, NoDup (leaves T) -> forall l r h q i, sub (Node l r h) T -> sub q T -> In i (leaves q) -> In i (leaves l) -> sub q l \/ sub (Node l r h) q.
Proof.
  induction T as [j|a IHa b IHb k]; intros N l r h q i Hp Hq Iq Il; [inversion Hp|]. cbn [leaves] in N.
  assert (Na : NoDup (leaves a)) by (eapply NoDup_app_remove_r; eauto). assert (Nb : NoDup (leaves b)) by (eapply NoDup_app_remove_l; eauto).
  inversion Hp; subst.
  - inversion Hq; subst; [right; apply sub_refl|left; assumption|]. exfalso. apply (nodup_app_disjoint _ _ _ N i); [exact Il|]. eapply sub_leaves; eauto.
  - inversion Hq; subst; [right; assumption|eapply IHa; eauto|]. exfalso. apply (nodup_app_disjoint _ _ _ N i); [|eapply sub_leaves; eauto].
    eapply sub_leaves; eauto. cbn [leaves]. apply in_or_app. now left.
  - inversion Hq; subst; [right; assumption| |eapply IHb; eauto]. exfalso. apply (nodup_app_disjoint _ _ _ N i); [eapply sub_leaves; eauto|].
    eapply sub_leaves; eauto. cbn [leaves]. apply in_or_app. now left.
Qed.
Lemma share_r : forall T, NoDup (leaves T) -> forall l r h q i, sub (Node l r h) T -> sub q T -> In i (leaves q) -> In i (leaves r) -> sub q r \/ sub (Node l r h) q.
Proof.
  induction T as [j|a IHa b IHb k]; intros N l r h q i Hp Hq Iq Il; [inversion Hp|]. cbn [leaves] in N.
  assert (Na : NoDup (leaves a)) by (eapply NoDup_app_remove_r; eauto). assert (Nb : NoDup (leaves b)) by (eapply NoDup_app_remove_l; eauto).
  inversion Hp; subst.
  - inversion Hq; subst; [right; apply sub_refl| |left; assumption]. exfalso. apply (nodup_app_disjoint _ _ _ N i); [|exact Il]. eapply sub_leaves; eauto.
  - inversion Hq; subst; [right; assumption|eapply IHa; eauto|]. exfalso. apply (nodup_app_disjoint _ _ _ N i); [|eapply sub_leaves; eauto].
    eapply sub_leaves; eauto. cbn [leaves]. apply in_or_app. now right.
  - inversion Hq; subst; [right; assumption| |eapply IHb; eauto]. exfalso. apply (nodup_app_disjoint _ _ _ N i); [eapply sub_leaves; eauto|].
    eapply sub_leaves; eauto. cbn [leaves]. apply in_or_app. now right.
Qed.
Lemma mono_sub : forall q t, sub q t -> mono t -> mono q.
Proof. induction 1; intros M; auto; destruct M as (M1 & M2 & _); auto. Qed.
Lemma mono_height : forall q t, sub q t -> mono t -> is_node q -> is_node t -> height q <= height t.
Proof.
  induction 1; intros M Nq Nt; [lra| |]; destruct M as (M1 & M2 & M3 & M4); cbn [height].
  - destruct l as [i|l1 l2 k]; [inversion H; subst; destruct Nq|]. pose proof (IHsub M1 Nq I). pose proof (M3 I). lra.
  - destruct r as [i|l1 l2 k]; [inversion H; subst; destruct Nq|]. pose proof (IHsub M2 Nq I). pose proof (M4 I). lra.
Qed.

(** ** Order of the nodes *)
Fixpoint sorted (l : list tree) : Prop := match l with [] => True | a :: l' => (forall b, In b l' -> height a <= height b) /\ sorted l' end.
Lemma insort_split : forall l t, sorted l -> exists a b, l = a ++ b /\ insort_left l t = a ++ t :: b /\
  (forall x, In x a -> height x < height t) /\ (forall x, In x b -> height t <= height x).
Proof.
  induction l as [|x l IH]; intros t Hs; cbn [insort_left].
  - exists [], []. repeat split; intros ? [].
  - destruct Hs as [H1 H2]. destruct (Rlt_dec (height x) (height t)) as [L|L].
    + destruct (IH t H2) as (a & b & -> & -> & Ha & Hb). exists (x :: a), b. repeat split; auto. intros y [<-|Hy]; auto.
    + exists [], (x :: l). repeat split; [intros ? []|]. intros y [<-|Hy]; [lra|]. specialize (H1 y Hy). lra.
Qed.
Lemma insort_sorted : forall l t, sorted l -> sorted (insort_left l t).
Proof.
  induction l as [|x l IH]; intros t Hs; cbn [insort_left]; [split; [intros ? []|exact I]|]. destruct Hs as [H1 H2].
  destruct (Rlt_dec (height x) (height t)) as [L|L].
  - split; [|apply IH; exact H2]. intros b Hb. destruct (insort_split l t H2) as (a & c & E & Ei & _). rewrite Ei in Hb. apply in_app_or in Hb.
    destruct Hb as [Hb|[<-|Hb]]; [apply H1; rewrite E; apply in_or_app; auto|lra|apply H1; rewrite E; apply in_or_app; auto].
  - split; [|split; auto]. intros b [<-|Hb]; [lra|]. specialize (H1 b Hb). lra.
Qed.
Lemma insort_perm : forall l t, Permutation (insort_left l t) (t :: l).
Proof.
  induction l as [|x l IH]; intros t; cbn [insort_left]; auto. destruct (Rlt_dec (height x) (height t)); auto.
  rewrite (IH t). apply perm_swap.
Qed.
Lemma split_mid : forall (A : Type) (l1 : list A) p l2 a x b, l1 ++ p :: l2 = a ++ x :: b ->
  (exists c, a = l1 ++ p :: c) \/ (l1 = a /\ p = x /\ l2 = b) \/ (exists c, l1 = a ++ x :: c /\ b = c ++ p :: l2).
Proof.
  induction l1 as [|y l1 IH]; intros p l2 a x b E; destruct a as [|z a]; cbn in E.
  - injection E as -> ->. right. left. auto.
  - injection E as -> E. left. exists a. reflexivity.
  - injection E as -> E. right. right. exists l1. split; [reflexivity|]. auto.
  - injection E as -> E. destruct (IH p l2 a x b E) as [(c & E2)|[(E2 & E3 & E4)|(c & E2 & E3)]]; subst.
    + left. exists c. reflexivity.
    + right. left. auto.
    + right. right. exists c. split; reflexivity.
Qed.
Definition child (c p : tree) : Prop := match p with Leaf _ => False | Node l r _ => c = l \/ c = r end.
(** every inner child of a node of the list stands before it, or is in the queue *)
Definition children_first (q nodes : list tree) : Prop :=
  forall l1 p l2, nodes = l1 ++ p :: l2 -> forall c, is_node c -> child c p -> In c l1 \/ In c q.

Lemma order_spec : forall fuel q nodes, (sizes q <= fuel)%nat -> sorted nodes -> children_first q nodes -> (forall t, In t q -> mono t) -> (forall t, In t nodes -> mono t) ->
  sorted (order_nodes fuel q nodes) /\ children_first [] (order_nodes fuel q nodes) /\ Permutation (order_nodes fuel q nodes) (nodes ++ inners q).
Proof.
  induction fuel as [|fuel IH]; intros q nodes Hf Hs Hc Hq Hn; cbn [order_nodes].
  - destruct q as [|t q]; [|exfalso; cbn in Hf; destruct t; cbn in Hf; lia]. cbn. rewrite app_nil_r. auto.
  - destruct q as [|t q]; [cbn; rewrite app_nil_r; auto|]. destruct t as [i|l r h].
    + destruct (IH q nodes) as (A & B & C).
      * unfold sizes in Hf |- *. cbn in Hf. lia.
      * exact Hs.
      * intros l1 p l2 E c Nc Cc. destruct (Hc l1 p l2 E c Nc Cc) as [H|[<-|H]]; auto. destruct Nc.
      * intros t Ht. apply Hq. now right.
      * exact Hn.
      * repeat split; auto.
    + pose proof (Hq _ (or_introl eq_refl)) as Mn. destruct (insort_split nodes (Node l r h) Hs) as (a & b & E & Ei & Ha & Hb).
      destruct (IH (q ++ [r; l]) (insort_left nodes (Node l r h))) as (A & B & C).
      * unfold sizes in *. cbn in Hf. rewrite fold_right_app. cbn. clear - Hf.
        assert (G : forall q s, fold_right (fun t s => (tree_size t + s)%nat) s q = (fold_right (fun t s => (tree_size t + s)%nat) 0%nat q + s)%nat).
        { induction q0 as [|x q0 IHq]; intros s; cbn; [reflexivity|]. rewrite IHq. lia. }
        rewrite G. lia.
      * apply insort_sorted. exact Hs.
      * rewrite Ei. intros l1 p l2 E2 c Nc Cc. symmetry in E2. destruct (split_mid _ _ _ _ _ _ _ E2) as [(d & Ed)|[(E3 & E4 & E5)|(d & E3 & Ed)]].
        -- subst a. rewrite <- app_assoc in E. cbn in E. destruct (Hc _ _ _ E c Nc Cc) as [H|[<-|H]]; auto; [|right; apply in_or_app; auto].
           exfalso. assert (Hp : height p < height (Node l r h)) by (apply Ha; apply in_or_app; right; now left).
           assert (Mp : mono p) by (apply Hn; rewrite E; apply in_or_app; right; now left). destruct p as [i|pl pr ph]; [destruct Cc|].
           destruct Mp as (_ & _ & M3 & M4). cbn [height] in *. destruct Cc as [<-|<-]; [specialize (M3 I)|specialize (M4 I)]; cbn [height] in *; lra.
        -- subst p. right. apply in_or_app. right. destruct Cc as [->| ->]; [right; now left|now left].
        -- subst b l1. rewrite app_assoc in E. destruct (Hc _ _ _ E c Nc Cc) as [H|[<-|H]].
           ++ left. apply in_app_or in H. apply in_or_app. destruct H; auto. right. now right.
           ++ left. apply in_or_app. right. now left.
           ++ right. apply in_or_app. auto.
      * intros t Ht. apply in_app_or in Ht. destruct Ht as [Ht|[<-|[<-|[]]]]; [apply Hq; now right| |]; destruct Mn as (M1 & M2 & _); auto.
      * intros t Ht. apply (Permutation_in _ (insort_perm nodes (Node l r h))) in Ht. destruct Ht as [<-|Ht]; auto.
      * repeat split; auto. rewrite C. rewrite (insort_perm nodes (Node l r h)). unfold inners. rewrite flat_map_app. cbn. rewrite app_nil_r.
        rewrite <- Permutation_middle. apply perm_skip. apply Permutation_app_head. rewrite Permutation_app_comm. rewrite <- !app_assoc. rewrite app_assoc.
        rewrite (app_assoc (inner l)). apply Permutation_app_tail. apply Permutation_app_comm.
Qed.
Lemma order_tree : forall T, mono T -> sorted (order_cluster_tree T) /\ children_first [] (order_cluster_tree T) /\ Permutation (order_cluster_tree T) (inner T).
Proof.
  intros T M. unfold order_cluster_tree. destruct (order_spec (tree_size T) [T] []) as (A & B & C).
  - cbn. lia.
  - exact I.
  - intros l1 p l2 E. destruct l1; discriminate.
  - intros t [<-|[]]. exact M.
  - intros t [].
  - cbn in C. rewrite app_nil_r in C. auto.
Qed.

(** ** One pass *)
(** the numbers are 0 .. k-1, in the order in which they appear first *)
Definition numbered (g : list nat) (k : nat) : Prop :=
  (forall v, In v g <-> (v < k)%nat) /\
  forall i c, (i < length g)%nat -> (c < nth i g 0)%nat -> exists j, (j < i)%nat /\ nth j g 0%nat = c.
Lemma join_length : forall g idx, length (join_groups g idx) = length g.
Proof. intros. unfold join_groups. cbv zeta. now rewrite !map_length, seq_length. Qed.
Lemma list_min_le : forall l x, In x l -> (list_min l <= x)%nat.
Proof.
  assert (G : forall l y, (fold_left Nat.min l y <= y)%nat /\ forall x, In x l -> (fold_left Nat.min l y <= x)%nat).
  { induction l as [|z l IH]; intros y; cbn [fold_left]; [split; [lia|intros ? []]|]. destruct (IH (Nat.min y z)) as [A B]. split; [lia|]. intros x [<-|H]; [lia|auto]. }
  intros [|y l] x H; [destruct H|]. cbn [list_min]. destruct (G l y) as [A B]. destruct H as [<-|H]; auto.
Qed.
Lemma list_min_in : forall l, l <> [] -> In (list_min l) l.
Proof.
  intros [|y l] H; [congruence|]. clear H. cbn [list_min]. revert y. induction l as [|z l IH]; intros y; cbn [fold_left]; [now left|].
  destruct (IH (Nat.min y z)) as [H|H]; [|right; now right]. destruct (Nat.min_spec y z) as [[_ E]|[_ E]]; rewrite E in H; rewrite E; [left|right; left]; auto.
Qed.
Lemma list_max_in : forall l, l <> [] -> In (list_max l) l.
Proof.
  induction l as [|y l IH]; intros H; [congruence|]. destruct l as [|z l]; [left; cbn; lia|]. change (list_max (y :: z :: l)) with (Nat.max y (list_max (z :: l))).
  destruct (Nat.max_spec y (list_max (z :: l))) as [[_ E]|[_ E]]; rewrite E; [right; apply IH; discriminate|now left].
Qed.
Lemma list_max_ge : forall l x, In x l -> (x <= list_max l)%nat.
Proof. intros l x H. pose proof (proj1 (list_max_le l (list_max l)) (Nat.le_refl _)) as F. rewrite Forall_forall in F. auto. Qed.
Lemma join_nth : forall g idx i, (i < length g)%nat ->
  nth i (join_groups g idx) 0%nat =
  (let v := if existsb (Nat.eqb i) idx then list_min (map (fun i => nth i g 0%nat) idx) else nth i g 0%nat in
   if Nat.ltb (list_max (map (fun i => nth i g 0%nat) idx)) v then (v - 1)%nat else v).
Proof.
  intros g idx i Hi. unfold join_groups. cbv zeta.
  set (F := fun v => if Nat.ltb (list_max (map (fun i => nth i g 0%nat) idx)) v then (v - 1)%nat else v).
  set (G := fun i => if existsb (Nat.eqb i) idx then list_min (map (fun i => nth i g 0%nat) idx) else nth i g 0%nat).
  rewrite (nth_indep _ 0%nat (F (G 0%nat))) by (rewrite !map_length, seq_length; exact Hi). rewrite map_nth, map_nth, seq_nth by exact Hi. reflexivity.
Qed.
Lemma existsb_in : forall idx i, existsb (Nat.eqb i) idx = true <-> In i idx.
Proof. intros. rewrite existsb_exists. split; [intros (x & H & E); apply Nat.eqb_eq in E; subst; auto|intros H; exists i; split; [auto|apply Nat.eqb_refl]]. Qed.

(** two different groups a < b are joined *)
Lemma join_two : forall g k ia ib a b, numbered g k -> (a < b)%nat ->
  (forall i, In i ia -> (i < length g)%nat /\ nth i g 0%nat = a) -> (forall i, In i ib -> (i < length g)%nat /\ nth i g 0%nat = b) ->
  (forall i, (i < length g)%nat -> nth i g 0%nat = a -> In i ia) -> (forall i, (i < length g)%nat -> nth i g 0%nat = b -> In i ib) ->
  ia <> [] -> ib <> [] -> forall idx, (forall i, In i idx <-> In i ia \/ In i ib) ->
  (forall i, (i < length g)%nat -> nth i (join_groups g idx) 0%nat = (let v := nth i g 0%nat in if Nat.eqb v b then a else if Nat.ltb b v then (v - 1)%nat else v)) /\
  numbered (join_groups g idx) (k - 1).
Proof.
  intros g k ia ib a b [Hk Hr] Lab Ha Hb Ca Cb Na Nb idx Hidx.
  set (old := map (fun i => nth i g 0%nat) idx).
  assert (Iold : forall v, In v old <-> v = a \/ v = b).
  { intros v. unfold old. rewrite in_map_iff. split.
    - intros (i & <- & Hi). apply Hidx in Hi. destruct Hi as [Hi|Hi]; [left; apply Ha|right; apply Hb]; auto.
    - intros [->| ->]; [destruct ia as [|i ia]; [congruence|]; exists i|destruct ib as [|i ib]; [congruence|]; exists i]; (split; [|apply Hidx]).
      + apply Ha; now left.
      + left; now left.
      + apply Hb; now left.
      + right; now left. }
  assert (Nold : old <> []) by (intros E; pose proof (proj2 (Iold a) (or_introl eq_refl)) as Q; rewrite E in Q; exact Q).
  assert (Emin : list_min old = a).
  { pose proof (list_min_in old Nold) as Q. apply Iold in Q. pose proof (list_min_le old a (proj2 (Iold a) (or_introl eq_refl))). lia. }
  assert (Emax : list_max old = b).
  { pose proof (list_max_in old Nold) as Q. apply Iold in Q. pose proof (list_max_ge old b (proj2 (Iold b) (or_intror eq_refl))). lia. }
  assert (V : forall i, (i < length g)%nat -> nth i (join_groups g idx) 0%nat = (let v := nth i g 0%nat in if Nat.eqb v b then a else if Nat.ltb b v then (v - 1)%nat else v)).
  { intros i Hi. rewrite (join_nth _ _ _ Hi). fold old. rewrite Emin, Emax. cbv zeta. destruct (existsb (Nat.eqb i) idx) eqn:E.
    - apply existsb_in in E. apply Hidx in E. assert (Q : Nat.ltb b a = false) by (apply Nat.ltb_ge; lia). rewrite Q. destruct E as [E|E].
      + rewrite (proj2 (Ha i E)). replace (Nat.eqb a b) with false by (symmetry; apply Nat.eqb_neq; lia). now rewrite Q.
      + rewrite (proj2 (Hb i E)). now rewrite Nat.eqb_refl.
    - assert (nth i g 0%nat <> b).
      { intros Q. assert (C : In i idx) by (apply Hidx; right; apply Cb; auto). apply existsb_in in C. congruence. }
      replace (Nat.eqb (nth i g 0%nat) b) with false by (symmetry; apply Nat.eqb_neq; auto). reflexivity. }
  split; [exact V|].
  assert (Bk : (b < k)%nat). { destruct ib as [|i ib]; [congruence|]. destruct (Hb i (or_introl eq_refl)) as [Q1 Q2]. apply Hk. rewrite <- Q2. apply nth_In; exact Q1. }
  split.
  - intros v. split.
    + intros Hv. apply (In_nth _ _ 0%nat) in Hv. destruct Hv as (i & Hi & E). rewrite join_length in Hi. rewrite V in E by exact Hi. cbv zeta in E.
      assert (Q : (nth i g 0 < k)%nat) by (apply Hk; apply nth_In; exact Hi).
      destruct (Nat.eqb (nth i g 0%nat) b) eqn:E1; [lia|]. apply Nat.eqb_neq in E1. destruct (Nat.ltb b (nth i g 0%nat)) eqn:E2; [apply Nat.ltb_lt in E2|apply Nat.ltb_ge in E2]; lia.
    + intros Hv. assert (Q : exists w, (w < k)%nat /\ w <> b /\ (if Nat.ltb b w then (w - 1)%nat else w) = v).
      { destruct (Nat.lt_ge_cases v b) as [C|C].
        - exists v. repeat split; [lia|lia|]. replace (Nat.ltb b v) with false by (symmetry; apply Nat.ltb_ge; lia). reflexivity.
        - exists (S v). repeat split; [lia|lia|]. replace (Nat.ltb b (S v)) with true by (symmetry; apply Nat.ltb_lt; lia). lia. }
      destruct Q as (w & Q1 & Q2 & Q3). apply Hk in Q1. apply (In_nth _ _ 0%nat) in Q1. destruct Q1 as (i & Hi & Ew).
      replace v with (nth i (join_groups g idx) 0%nat). { apply nth_In. now rewrite join_length. }
      rewrite V by exact Hi. cbv zeta. rewrite Ew. replace (Nat.eqb w b) with false by (symmetry; apply Nat.eqb_neq; auto). exact Q3.
  - intros i c Hi Hc. rewrite join_length in Hi. rewrite V in Hc by exact Hi. cbv zeta in Hc.
    assert (Low : (c < b)%nat -> (c < nth i g 0)%nat -> exists j, (j < i)%nat /\ nth j (join_groups g idx) 0%nat = c).
    { intros C1 C2. destruct (Hr i c Hi C2) as (j & Hj & Ej). exists j. split; [exact Hj|]. rewrite V by lia. cbv zeta. rewrite Ej.
      replace (Nat.eqb c b) with false by (symmetry; apply Nat.eqb_neq; lia). replace (Nat.ltb b c) with false by (symmetry; apply Nat.ltb_ge; lia). reflexivity. }
    destruct (Nat.eqb (nth i g 0%nat) b) eqn:E1; [apply Nat.eqb_eq in E1; apply Low; lia|]. apply Nat.eqb_neq in E1.
    destruct (Nat.ltb b (nth i g 0%nat)) eqn:E2; [apply Nat.ltb_lt in E2|apply Nat.ltb_ge in E2; apply Low; lia].
    destruct (Nat.lt_ge_cases c b) as [C|C]; [apply Low; lia|]. destruct (Hr i (S c) Hi) as (j & Hj & Ej); [lia|]. exists j. split; [exact Hj|].
    rewrite V by lia. cbv zeta. rewrite Ej. replace (Nat.eqb (S c) b) with false by (symmetry; apply Nat.eqb_neq; lia).
    replace (Nat.ltb b (S c)) with true by (symmetry; apply Nat.ltb_lt; lia). lia.
Qed.

(** ** The loop *)
(** i and j are in one of the nodes of ps *)
Definition together (ps : list tree) (i j : nat) : Prop := i = j \/ exists p, In p ps /\ In i (leaves p) /\ In j (leaves p).
Lemma prefix_closed : forall nodes ps p rest, children_first [] nodes -> nodes = ps ++ p :: rest ->
  forall q c, In q ps -> sub c q -> is_node c -> In c ps.
Proof.
  intros nodes ps p rest Hc E.
  assert (G : forall q c, sub c q -> forall l1 l2, ps = l1 ++ q :: l2 -> is_node c -> In c ps).
  { intros q c Hs. induction Hs as [t|q l r h Hs IH|q l r h Hs IH]; intros l1 l2 El Nc.
    - rewrite El. apply in_or_app. right. now left.
    - destruct l as [i|ll lr lh]; [inversion Hs; subst; destruct Nc|]. assert (Q : In (Node ll lr lh) l1).
      { destruct (Hc l1 (Node (Node ll lr lh) r h) (l2 ++ p :: rest)) with (c := Node ll lr lh) as [Q|[]]; [rewrite E, El, <- app_assoc; reflexivity|exact I|now left|exact Q]. }
      apply in_split in Q. destruct Q as (m1 & m2 & ->). apply (IH m1 (m2 ++ Node (Node ll lr lh) r h :: l2)); [|exact Nc]. rewrite El, <- app_assoc. reflexivity.
    - destruct r as [i|ll lr lh]; [inversion Hs; subst; destruct Nc|]. assert (Q : In (Node ll lr lh) l1).
      { destruct (Hc l1 (Node l (Node ll lr lh) h) (l2 ++ p :: rest)) with (c := Node ll lr lh) as [Q|[]]; [rewrite E, El, <- app_assoc; reflexivity|exact I|now right|exact Q]. }
      apply in_split in Q. destruct Q as (m1 & m2 & ->). apply (IH m1 (m2 ++ Node l (Node ll lr lh) h :: l2)); [|exact Nc]. rewrite El, <- app_assoc. reflexivity. }
  intros q c Hq Hs Nc. apply in_split in Hq. destruct Hq as (l1 & l2 & El). eapply G; eauto.
Qed.
Section loop.
Variable T : tree.
Variable n : nat.
Hypothesis Hperm : Permutation (leaves T) (seq 0 n).
Hypothesis Hmono : mono T.
Let nodes := order_cluster_tree T.
Lemma Hnd : NoDup (leaves T).
Proof. eapply Permutation_NoDup; [apply Permutation_sym; exact Hperm|apply seq_NoDup]. Qed.
Lemma leaf_range : forall t i, sub t T -> In i (leaves t) -> (i < n)%nat.
Proof. intros t i Hs Hi. apply (sub_leaves _ _ Hs) in Hi. apply (Permutation_in _ Hperm) in Hi. apply in_seq in Hi. lia. Qed.
Lemma nodes_sub : forall p, In p nodes <-> sub p T /\ is_node p.
Proof. intros p. rewrite <- inner_sub. pose proof (proj2 (proj2 (order_tree T Hmono))) as Q. split; intros H; [exact (Permutation_in _ Q H)|exact (Permutation_in _ (Permutation_sym Q) H)]. Qed.
Lemma nodes_nodup : NoDup nodes.
Proof. eapply Permutation_NoDup; [apply Permutation_sym; apply (order_tree T Hmono)|apply inner_nodup; exact Hnd]. Qed.
Lemma cut_loop : forall ps rest, nodes = ps ++ rest ->
  let g := fold_left (fun g t => join_groups g (leaves t)) ps (seq 0 n) in
  length g = n /\ numbered g (n - length ps) /\ forall i j, (i < n)%nat -> (j < n)%nat -> nth i g 0%nat = nth j g 0%nat <-> together ps i j.
Proof.
  intros ps. induction ps as [|p ps IH] using rev_ind; intros rest E.
  - cbn [fold_left]. cbv zeta. rewrite seq_length. split; [reflexivity|]. split.
    + cbn [length]. rewrite Nat.sub_0_r. split.
      * intros v. rewrite in_seq. lia.
      * intros i c Hi Hc. rewrite seq_length in Hi. rewrite seq_nth in Hc by exact Hi. exists c. split; [lia|]. rewrite seq_nth by lia. reflexivity.
    + intros i j Hi Hj. rewrite !seq_nth by assumption. split; [intros H; left; lia|]. intros [->|(p & [] & _)]. reflexivity.
  - rewrite <- app_assoc in E. cbn in E. specialize (IH _ E). cbv zeta in IH |- *. rewrite fold_left_app. cbn [fold_left].
    set (g := fold_left (fun g t => join_groups g (leaves t)) ps (seq 0 n)) in *. destruct IH as (Lg & Ng & Tg).
    assert (Hp : sub p T /\ is_node p) by (apply nodes_sub; rewrite E; apply in_or_app; right; now left). destruct Hp as [Sp Np].
    assert (Hsub : forall q, In q ps -> sub q T) by (intros q Hq; apply nodes_sub; rewrite E; apply in_or_app; now left).
    destruct p as [x|l r h]; [destruct Np|].
    assert (Pno : ~ In (Node l r h) ps). { intros H. pose proof nodes_nodup as Q. rewrite E in Q. apply NoDup_remove_2 in Q. apply Q. apply in_or_app. now left. }
    assert (Anc : forall q, In q ps -> sub (Node l r h) q -> False). { intros q Hq Hs. apply Pno. exact (prefix_closed nodes ps (Node l r h) rest (proj1 (proj2 (order_tree T Hmono))) E q (Node l r h) Hq Hs I). }
    assert (Sl : sub l T) by (eapply sub_trans; [apply sub_left, sub_refl|exact Sp]). assert (Sr : sub r T) by (eapply sub_trans; [apply sub_right, sub_refl|exact Sp]).
    assert (Dlr : forall i, In i (leaves l) -> In i (leaves r) -> False). { intros i. pose proof (sub_nodup _ _ Sp Hnd) as Q. cbn [leaves] in Q. apply (nodup_app_disjoint _ _ _ Q). }
    assert (Ch : forall c, child c (Node l r h) -> is_node c -> In c ps). { intros c Cc Nc. destruct (proj1 (proj2 (order_tree T Hmono)) _ _ _ E c Nc Cc) as [Q|[]]; exact Q. }
    assert (One : forall c, child c (Node l r h) -> sub c T -> (forall q i, In q ps -> In i (leaves q) -> In i (leaves c) -> sub q c) ->
              exists v, (forall i, (i < n)%nat -> nth i g 0%nat = v <-> In i (leaves c))).
    { intros c Cc Sc Hq. destruct (leaf_in c) as [i0 Hi0]. exists (nth i0 g 0%nat). intros i Hi. rewrite Tg by first [assumption | exact (leaf_range c i0 Sc Hi0)]. split.
      - intros [->|(q & Q1 & Q2 & Q3)]; [exact Hi0|]. apply (sub_leaves _ _ (Hq q i0 Q1 Q3 Hi0)). exact Q2.
      - intros Q. destruct c as [x|cl cr ch]; [left; cbn [leaves] in Hi0, Q; destruct Hi0 as [<-|[]], Q as [<-|[]]; reflexivity|]. right. exists (Node cl cr ch). split; [apply Ch; [exact Cc|exact I]|]. split; assumption. }
    destruct (One l) as [vl Vl]; [now left|exact Sl| |].
    { intros q i Hq Hiq Hil. destruct (share T Hnd l r h q i Sp (Hsub q Hq) Hiq Hil) as [Q|Q]; [exact Q|]. exfalso. exact (Anc q Hq Q). }
    destruct (One r) as [vr Vr]; [now right|exact Sr| |].
    { intros q i Hq Hiq Hil. destruct (share_r T Hnd l r h q i Sp (Hsub q Hq) Hiq Hil) as [Q|Q]; [exact Q|]. exfalso. exact (Anc q Hq Q). }
    destruct (leaf_in l) as [il Hil]. destruct (leaf_in r) as [ir Hir].
    assert (Rl : (il < n)%nat) by exact (leaf_range l il Sl Hil). assert (Rr : (ir < n)%nat) by exact (leaf_range r ir Sr Hir).
    assert (Nv : vl <> vr). { intros Q. apply (Dlr il Hil). apply Vr; [exact Rl|]. rewrite <- Q. apply Vl; auto. }
    assert (J : forall ia ib a b, (a < b)%nat -> (forall i, (i < n)%nat -> nth i g 0%nat = a <-> In i ia) -> (forall i, (i < n)%nat -> nth i g 0%nat = b <-> In i ib) ->
              (forall i, In i ia -> (i < n)%nat) -> (forall i, In i ib -> (i < n)%nat) -> ia <> [] -> ib <> [] -> (forall i, In i (leaves (Node l r h)) <-> In i ia \/ In i ib) ->
              numbered (join_groups g (leaves (Node l r h))) (n - length ps - 1) /\
              forall i j, (i < n)%nat -> (j < n)%nat -> nth i (join_groups g (leaves (Node l r h))) 0%nat = nth j (join_groups g (leaves (Node l r h))) 0%nat <->
                (nth i g 0%nat = nth j g 0%nat \/ (In i (leaves (Node l r h)) /\ In j (leaves (Node l r h))))).
    { intros ia ib a b Lab Va Vb Ra Rb Na Nb Hidx.
      destruct (join_two g (n - length ps) ia ib a b Ng Lab) with (idx := leaves (Node l r h)) as [W1 W2]; auto.
      - intros i Hi. rewrite Lg. split; [apply Ra; exact Hi|apply Va; auto].
      - intros i Hi. rewrite Lg. split; [apply Rb; exact Hi|apply Vb; auto].
      - intros i Hi. rewrite Lg in Hi. apply Va; auto.
      - intros i Hi. rewrite Lg in Hi. apply Vb; auto.
      - split; [exact W2|]. intros i j Hi Hj. rewrite !W1 by (rewrite Lg; assumption). cbv zeta. rewrite !Hidx, <- !Va, <- !Vb by assumption.
        destruct (Nat.eqb_spec (nth i g 0%nat) b), (Nat.eqb_spec (nth j g 0%nat) b), (Nat.ltb_spec b (nth i g 0%nat)), (Nat.ltb_spec b (nth j g 0%nat)); lia. }
    assert (J2 : numbered (join_groups g (leaves (Node l r h))) (n - length ps - 1) /\
              forall i j, (i < n)%nat -> (j < n)%nat -> nth i (join_groups g (leaves (Node l r h))) 0%nat = nth j (join_groups g (leaves (Node l r h))) 0%nat <->
                (nth i g 0%nat = nth j g 0%nat \/ (In i (leaves (Node l r h)) /\ In j (leaves (Node l r h))))).
    { assert (Gl : forall i, In i (leaves l) -> (i < n)%nat) by (intros i Hi; exact (leaf_range l i Sl Hi)). assert (Gr : forall i, In i (leaves r) -> (i < n)%nat) by (intros i Hi; exact (leaf_range r i Sr Hi)).
      destruct (Nat.lt_ge_cases vl vr) as [C|C].
      - apply (J (leaves l) (leaves r) vl vr); auto using leaves_ne. intros i. cbn [leaves]. apply in_app_iff.
      - apply (J (leaves r) (leaves l) vr vl); auto using leaves_ne; [lia|]. intros i. cbn [leaves]. rewrite in_app_iff. tauto. }
    destruct J2 as [J3 J4]. split; [now rewrite join_length|]. split.
    + rewrite app_length. cbn [length]. replace (n - (length ps + 1))%nat with (n - length ps - 1)%nat by lia. exact J3.
    + intros i j Hi Hj. rewrite (J4 i j Hi Hj). rewrite (Tg i j Hi Hj). split.
      * intros [[->|(q & Q1 & Q2)]|Q]; [now left|right; exists q; split; [apply in_or_app; now left|exact Q2]|right; exists (Node l r h); split; [apply in_or_app; right; now left|exact Q]].
      * intros [->|(q & Q1 & Q2)]; [left; now left|]. apply in_app_or in Q1. destruct Q1 as [Q1|[<-|[]]]; [left; right; exists q; auto|right; exact Q2].
Qed.
End loop.
Lemma inner_length : forall t, length (leaves t) = S (length (inner t)).
Proof. induction t as [i|l IHl r IHr h]; cbn [leaves inner]; [reflexivity|]. cbn [length]. rewrite !app_length. lia. Qed.
