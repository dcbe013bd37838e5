(** Linkages of transformed and reordered distances. *)
From Coq Require Import Reals Lra String List Arith Lia Bool ZArith Permutation.
From Verif Require Import Base Num Sums Sim_Model Dist_Model Info_Model Feat_Model Clust_Model Clust_Spec Link_Model Link_Spec Link_Tree Link_Run Link_Cut_Props Link_Sep Link_Rows_Props Link_Recover_Props.
Import ListNotations.
Open Scope R_scope.

Definition increasing (f : R -> R) : Prop := forall x y, x < y -> f x < f y.
Lemma increasing_le : forall f x y, increasing f -> x <= y -> f x <= f y.
Proof. intros f x y Hf [H| ->]; [left; apply Hf; exact H|lra]. Qed.
(** the distances the method computes are transformed when the distances are *)
Definition commutes (m : method) (f : R -> R) : Prop := forall a b d sx sy si, 0 <= sx -> 0 <= sy -> 0 <= si -> 0 < sx + sy -> update m (f a) (f b) (f d) sx sy si = f (update m a b d sx sy si).

Lemma commutes_extreme : forall m f, m = Single \/ m = Complete -> increasing f -> commutes m f.
Proof.
  intros m f [->| ->] Hf a b d sx sy si _ _ _ _; cbn [update].
  - destruct (Rle_dec a b) as [H|H]; [rewrite !Rmin_left; auto using increasing_le|rewrite !Rmin_right; auto; [lra|apply increasing_le; [exact Hf|lra]]].
  - destruct (Rle_dec a b) as [H|H]; [rewrite !Rmax_right; auto using increasing_le|rewrite !Rmax_left; auto; [lra|apply increasing_le; [exact Hf|lra]]].
Qed.
Lemma affine_increasing : forall c b, 0 < c -> increasing (fun x => c * x + b).
Proof. intros c b Hc x y H. pose proof (Rmult_lt_compat_l c x y Hc H). lra. Qed.
Lemma commutes_affine : forall m c b, averaging_method m -> 0 < c -> commutes m (fun x => c * x + b).
Proof.
  intros m c b Ha Hc. destruct m; try destruct Ha; first [apply commutes_extreme; [now auto|apply affine_increasing; exact Hc]|intros u v d sx sy si Sx Sy Si Sxy; cbn [update]; field; lra].
Qed.
Lemma sqrt_scale : forall c x, 0 < c -> sqrt (c * c * x) = c * sqrt x.
Proof. intros c x Hc. rewrite sqrt_mult_alt by (apply Rle_0_sqr). rewrite sqrt_square by lra. reflexivity. Qed.
Lemma commutes_scale : forall m c, 0 < c -> commutes m (fun x => c * x).
Proof.
  intros m c Hc. destruct m; try (intros u v d sx sy si Sx Sy Si Sxy; cbn [update]; rewrite <- ?sqrt_scale by exact Hc; (f_equal; field; lra) || (field; lra)).
  - apply commutes_extreme; [auto|]. intros x y H. apply Rmult_lt_compat_l; auto.
  - apply commutes_extreme; [auto|]. intros x y H. apply Rmult_lt_compat_l; auto.
Qed.

Section transform.
Variables (m : method) (f : R -> R) (n : nat) (p : nat -> nat).
Hypothesis Hf : increasing f.
Hypothesis Hc : commutes m f.
Hypothesis Hp : forall i, (i < n)%nat -> (p i < n)%nat.
Hypothesis Pinj : forall i j, (i < n)%nat -> (j < n)%nat -> p i = p j -> i = j.
(** the numbers of clusters: items are renumbered *)
Definition ren (i : nat) : nat := if Nat.ltb i n then p i else i.
Lemma ren_item : forall i, (i < n)%nat -> ren i = p i.
Proof. intros i H. unfold ren. destruct (Nat.ltb_spec i n); [reflexivity|lia]. Qed.
Lemma ren_new : forall i, (n <= i)%nat -> ren i = i.
Proof. intros i H. unfold ren. destruct (Nat.ltb_spec i n); [lia|reflexivity]. Qed.
Lemma ren_inj : forall i j, ren i = ren j -> i = j.
Proof.
  intros i j. unfold ren. destruct (Nat.ltb_spec i n) as [Hi|Hi], (Nat.ltb_spec j n) as [Hj|Hj]; intros E; auto.
  - pose proof (Hp i Hi). lia.
  - pose proof (Hp j Hj). lia.
Qed.
Definition rmap (r : row) : row := mkRow (ren (r_left r)) (ren (r_right r)) (f (r_height r)) (r_count r).

Lemma filter_perm : forall (A : Type) (g : A -> bool) l l', Permutation l l' -> Permutation (filter g l) (filter g l').
Proof.
  intros A g l l' H. induction H; cbn [filter]; auto.
  - destruct (g x); auto.
  - destruct (g x), (g y); auto using perm_swap.
  - eapply perm_trans; eauto.
Qed.
Lemma filter_ren : forall x y l, filter (fun i => negb (Nat.eqb i (ren x)) && negb (Nat.eqb i (ren y))) (map ren l) = map ren (filter (fun i => negb (Nat.eqb i x) && negb (Nat.eqb i y)) l).
Proof.
  intros x y l. assert (E : forall a b, Nat.eqb (ren a) (ren b) = Nat.eqb a b).
  { intros a b. destruct (Nat.eqb_spec a b) as [->|N]; [apply Nat.eqb_refl|]. apply Nat.eqb_neq. intros Q. apply N. apply ren_inj. exact Q. }
  induction l as [|a l IH]; [reflexivity|]. cbn [map filter]. rewrite !E, IH. destruct (negb (Nat.eqb a x) && negb (Nat.eqb a y)); reflexivity.
Qed.
(** the renamed clusters of c are those of c', with transformed distances *)
Definition matches (c c' : clustering) : Prop :=
  Permutation (active c') (map ren (active c)) /\ (forall u, In u (active c) -> csize c' (ren u) = csize c u /\ (0 < csize c u)%nat) /\
  forall u v, In u (active c) -> In v (active c) -> u <> v -> cdist c' (ren u) (ren v) = f (cdist c u v).
Lemma matches_merge : forall c c' x y new, (n <= new)%nat -> matches c c' -> In x (active c) -> In y (active c) -> x <> y -> matches (merge m c x y new) (merge m c' (ren x) (ren y) new).
Proof.
  intros c c' x y new Hnew (Ma & Ms & Md) Hx Hy Nxy. pose proof (ren_new new Hnew) as En.
  assert (Nn : forall u, u <> new -> ren u <> new) by (intros u N Q; rewrite <- En in Q; apply N; apply ren_inj; exact Q).
  assert (U : forall i, In i (active c) -> i <> x -> i <> y -> update m (cdist c' (ren x) (ren i)) (cdist c' (ren y) (ren i)) (cdist c' (ren x) (ren y)) (INR (csize c' (ren x))) (INR (csize c' (ren y))) (INR (csize c' (ren i))) =
     f (update m (cdist c x i) (cdist c y i) (cdist c x y) (INR (csize c x)) (INR (csize c y)) (INR (csize c i)))).
  { intros i Hi I1 I2. rewrite !Md by auto. destruct (Ms x Hx) as [-> Px], (Ms y Hy) as [-> Py], (Ms i Hi) as [-> _]. apply Hc; try apply pos_INR. apply lt_0_INR in Px. pose proof (pos_INR (csize c y)). lra. }
  split; [|split].
  - unfold merge. cbv zeta. cbn [active]. rewrite map_app. cbn [map]. rewrite En. apply Permutation_app_tail. rewrite <- filter_ren. apply filter_perm. exact Ma.
  - intros u Hu. apply active_merge in Hu. unfold merge. cbv zeta. cbn [csize]. destruct (Nat.eqb_spec u new) as [->|E].
    + rewrite En, Nat.eqb_refl. destruct (Ms x Hx) as [-> Px], (Ms y Hy) as [-> Py]. split; [reflexivity|lia].
    + destruct (Nat.eqb_spec (ren u) new) as [Q|_]; [destruct (Nn u E Q)|]. apply Ms. destruct Hu as [(Hu & _)| ->]; [exact Hu|congruence].
  - intros u v Hu Hv Nuv. apply active_merge in Hu. apply active_merge in Hv. unfold merge. cbv zeta. cbn [cdist].
    destruct (Nat.eqb_spec u new) as [->|E1].
    + rewrite En, Nat.eqb_refl. destruct Hv as [(Hv & V1 & V2)| ->]; [|congruence]. apply U; auto.
    + destruct (Nat.eqb_spec (ren u) new) as [Q|_]; [destruct (Nn u E1 Q)|]. destruct Hu as [(Hu & U1 & U2)| ->]; [|congruence]. destruct (Nat.eqb_spec v new) as [->|E2].
      * rewrite En, Nat.eqb_refl. apply U; auto.
      * destruct (Nat.eqb_spec (ren v) new) as [Q|_]; [destruct (Nn v E2 Q)|]. destruct Hv as [(Hv & V1 & V2)| ->]; [|congruence]. apply Md; auto.
Qed.
Lemma run_map : forall new c zs, link_run m new c zs -> (n <= new)%nat -> forall c', matches c c' -> link_run m new c' (map rmap zs).
Proof.
  intros new c zs H. induction H as [new c x Ha|new c x y rows Hx Hy Nxy Hmin Hrun IH]; intros Hnew c' M.
  - destruct M as (Ma & _). rewrite Ha in Ma. cbn [map] in Ma. apply Permutation_sym, Permutation_length_1_inv in Ma. cbn [map]. apply link_done with (ren x). exact Ma.
  - pose proof M as (Ma & Ms & Md). cbn [map]. unfold rmap at 1. cbn [r_left r_right r_height r_count].
    assert (In' : forall u, In u (active c) -> In (ren u) (active c')) by (intros u Hu; eapply Permutation_in; [apply Permutation_sym; exact Ma|]; apply in_map; exact Hu).
    assert (Out : forall u, In u (active c') -> exists w, u = ren w /\ In w (active c)) by (intros u Hu; eapply Permutation_in in Hu; [|exact Ma]; apply in_map_iff in Hu; destruct Hu as (w & <- & Hw); eauto).
    rewrite <- (Md x y Hx Hy Nxy). destruct (Ms x Hx) as [Ex _], (Ms y Hy) as [Ey _]. rewrite <- Ex, <- Ey. apply link_step; auto.
    + intros Q. apply Nxy. apply ren_inj. exact Q.
    + intros u v Hu Hv Nuv. destruct (Out u Hu) as (a & -> & Ia), (Out v Hv) as (b & -> & Ib). assert (Nab : a <> b) by congruence. rewrite !Md by auto. apply increasing_le; [exact Hf|]. apply Hmin; auto.
    + apply IH; [lia|]. apply matches_merge; auto.
Qed.

(** ** The tree and the order of its nodes *)
Fixpoint tmap (t : tree) : tree := match t with Leaf i => Leaf (p i) | Node l r h => Node (tmap l) (tmap r) (f h) end.
Lemma leaves_tmap : forall t, leaves (tmap t) = map p (leaves t).
Proof. induction t as [i|l IHl r IHr h]; cbn [tmap leaves map]; [reflexivity|]. rewrite IHl, IHr, map_app. reflexivity. Qed.
Lemma size_tmap : forall t, tree_size (tmap t) = tree_size t.
Proof. induction t as [i|l IHl r IHr h]; cbn [tmap tree_size]; congruence. Qed.
Lemma insort_tmap : forall l t, is_node t -> (forall a, In a l -> is_node a) -> insort_left (map tmap l) (tmap t) = map tmap (insort_left l t).
Proof.
  induction l as [|a l IH]; intros t Ht Hl; [reflexivity|]. cbn [map insort_left].
  assert (Ha : is_node a) by (apply Hl; now left). destruct t as [?|tl tr th]; [destruct Ht|]. destruct a as [?|al ar ah]; [destruct Ha|]. cbn [tmap height].
  destruct (Rlt_dec ah th) as [L|L].
  - destruct (Rlt_dec (f ah) (f th)) as [_|N]; [|destruct N; apply Hf; exact L]. cbn [map tmap]. f_equal. apply (IH (Node tl tr th)); [exact I|]. intros b Hb. apply Hl. now right.
  - destruct (Rlt_dec (f ah) (f th)) as [C|_]; [|reflexivity]. exfalso. apply Rnot_lt_le in L. apply (increasing_le f _ _ Hf) in L. lra.
Qed.
Lemma insort_in : forall l t a, In a (insort_left l t) -> a = t \/ In a l.
Proof.
  induction l as [|b l IH]; intros t a H; cbn [insort_left] in H; [destruct H as [H|[]]; auto|]. destruct (Rlt_dec (height b) (height t)); [|destruct H as [H|H]; auto].
  destruct H as [H|H]; [right; now left|]. apply IH in H. destruct H; auto. right. now right.
Qed.
Lemma order_tmap : forall fuel q nodes, (forall a, In a nodes -> is_node a) -> order_nodes fuel (map tmap q) (map tmap nodes) = map tmap (order_nodes fuel q nodes).
Proof.
  induction fuel as [|fuel IH]; intros q nodes Hn; [reflexivity|]. destruct q as [|[i|l r h] q]; cbn [map order_nodes tmap]; [reflexivity|apply IH; exact Hn|].
  change (Node (tmap l) (tmap r) (f h)) with (tmap (Node l r h)). rewrite insort_tmap by (exact I || exact Hn). change [tmap r; tmap l] with (map tmap [r; l]). rewrite <- map_app. apply IH.
  intros a Ha. apply insort_in in Ha. destruct Ha as [->|Ha]; [exact I|auto].
Qed.
Lemma order_tree_tmap : forall t, order_cluster_tree (tmap t) = map tmap (order_cluster_tree t).
Proof. intros t. unfold order_cluster_tree. rewrite size_tmap. apply (order_tmap _ [t] []). intros a []. Qed.

Lemma forest_map : forall zs u, (n = 0 -> False)%nat -> (u < n + length zs)%nat -> (forall k r, nth_error zs k = Some r -> (r_left r < n + k)%nat /\ (r_right r < n + k)%nat) ->
  at_ (forest n (map rmap zs)) (ren u) = tmap (at_ (forest n zs) u).
Proof.
  intros zs. induction zs as [|r zs IH] using rev_ind; intros u Hn Hu Hr.
  - cbn [length] in Hu. assert (H : (u < n)%nat) by lia. rewrite ren_item by exact H. unfold forest. cbn [map fold_left]. rewrite !at_leaves0 by auto. reflexivity.
  - rewrite map_app. cbn [map]. rewrite !forest_snoc. unfold grow at 1 2. unfold at_. rewrite app_length in Hu. cbn [length] in Hu.
    assert (Hr' : forall k r0, nth_error zs k = Some r0 -> (r_left r0 < n + k)%nat /\ (r_right r0 < n + k)%nat).
    { intros k r0 H. apply Hr. rewrite nth_error_app1; [exact H|]. apply nth_error_Some. congruence. }
    destruct (Hr (length zs) r) as [Hl Hrr]. { rewrite nth_error_app2, Nat.sub_diag by lia. reflexivity. }
    assert (Lz : length (map rmap zs) = length zs) by apply map_length.
    destruct (Nat.eq_dec u (n + length zs)) as [->|N].
    + rewrite ren_new by lia. rewrite !app_nth2; rewrite !forest_length, ?Lz; try lia. rewrite Nat.sub_diag. cbn [nth]. unfold new_node. cbn [tmap]. cbn [rmap r_left r_right r_height].
      rewrite !IH by (auto; lia). reflexivity.
    + assert (Lr : (ren u < n + length zs)%nat). { unfold ren. destruct (Nat.ltb_spec u n) as [Hu'|Hu']; [pose proof (Hp u Hu'); lia|lia]. }
      rewrite !app_nth1; rewrite ?forest_length, ?Lz; try lia. apply IH; auto; lia.
Qed.
End transform.

(** numbers of groups in the order of appearance are determined by the groups *)
Lemma numbered_unique : forall g g' k k', length g = length g' -> numbered_groups g k -> numbered_groups g' k' -> (forall i j, (i < length g)%nat -> (j < length g)%nat -> same_group g i j <-> same_group g' i j) -> g = g'.
Proof.
  intros g g' k k' L (_ & N) (_ & N') H. apply nth_ext with (d := 0%nat) (d' := 0%nat); [exact L|]. intros i. induction i as [i IH] using lt_wf_ind. intros Hi.
  destruct (Nat.lt_trichotomy (nth i g 0%nat) (nth i g' 0%nat)) as [C|[C|C]]; [|exact C|]; exfalso.
  - destruct (N' i (nth i g 0%nat)) as (j & Hj & Ej); [lia|exact C|]. rewrite <- (IH j Hj) in Ej by lia. assert (Q : same_group g j i) by exact Ej. apply H in Q; [|lia|lia]. unfold same_group in Q. rewrite <- (IH j Hj) in Q by lia. lia.
  - destruct (N i (nth i g' 0%nat)) as (j & Hj & Ej); [lia|exact C|]. rewrite (IH j Hj) in Ej by lia. assert (Q : same_group g' j i) by exact Ej. apply H in Q; [|lia|lia]. unfold same_group in Q. rewrite (IH j Hj) in Q by lia. lia.
Qed.

Lemma nodup_map_in : forall (A B : Type) (g : A -> B) l, (forall a b, In a l -> In b l -> g a = g b -> a = b) -> NoDup l -> NoDup (map g l).
Proof.
  intros A B g l. induction l as [|x l IH]; intros H N; cbn [map]; [constructor|]. inversion N as [|? ? N1 N2]; subst. constructor.
  - intros Q. apply in_map_iff in Q. destruct Q as (y & Ey & Hy). apply H in Ey; [|now right|now left]. subst. contradiction.
  - apply IH; [|exact N2]. intros a b Ha Hb. apply H; now right.
Qed.
Lemma same_runs : forall m f n D D' p zs, monotone_method m -> increasing f -> commutes m f -> (2 <= n)%nat ->
  (forall i j, (i < n)%nat -> (j < n)%nat -> 0 <= D i j /\ D i j = D j i /\ D i i = 0) ->
  (forall i j, (i < n)%nat -> (j < n)%nat -> 0 <= D' i j /\ D' i j = D' j i /\ D' i i = 0) ->
  (forall i, (i < n)%nat -> (p i < n)%nat) -> (forall i j, (i < n)%nat -> (j < n)%nat -> p i = p j -> i = j) ->
  (forall i j, (i < n)%nat -> (j < n)%nat -> i <> j -> D' (p i) (p j) = f (D i j)) ->
  link_run m n (start n D) zs ->
  link_run m n (start n D') (map (rmap f n p) zs) /\
  forall k, exists g g', cut_tree zs k = Ok g /\ cut_tree (map (rmap f n p) zs) k = Ok g' /\ length g = n /\ length g' = n /\ numbered_groups g (clamp n k) /\ numbered_groups g' (clamp n k) /\
    forall i j, (i < n)%nat -> (j < n)%nat -> same_group g' (p i) (p j) <-> same_group g i j.
Proof.
  intros m f n D D' p zs Hm Hf Hc Hn HD HD' Hp Pinj HDD Hrun.
  assert (Hrun' : link_run m n (start n D') (map (rmap f n p) zs)).
  { apply (run_map m f n p Hf Hc Hp Pinj n (start n D) zs Hrun (le_n n)). split; [|split]; cbn [active csize cdist start].
    - apply NoDup_Permutation_bis.
      + apply seq_NoDup.
      + rewrite map_length. lia.
      + intros v Hv. apply in_seq in Hv.
        assert (Q : incl (seq 0 n) (map p (seq 0 n))).
        { apply (NoDup_length_incl (l := map p (seq 0 n)) (l' := seq 0 n)).
          - apply nodup_map_in; [|apply seq_NoDup]. intros a b Ha Hb. apply in_seq in Ha. apply in_seq in Hb. apply Pinj; lia.
          - rewrite map_length. lia.
          - intros w Hw. apply in_map_iff in Hw. destruct Hw as (a & <- & Ha). apply in_seq in Ha. apply in_seq. pose proof (Hp a). lia. }
        specialize (Q v (proj2 (in_seq _ _ _) Hv)). apply in_map_iff in Q. destruct Q as (a & Ea & Ha). apply in_map_iff. exists a. split; [|exact Ha]. apply in_seq in Ha. rewrite ren_item by lia. exact Ea.
    - intros u _. auto.
    - intros u v Hu Hv N. apply in_seq in Hu. apply in_seq in Hv. rewrite !ren_item by lia. apply HDD; lia. }
  split; [exact Hrun'|]. intros k. destruct (cut_spec m n D zs Hm HD Hn Hrun k) as (g & E & L & Ng & Hg). destruct (cut_spec m n D' _ Hm HD' Hn Hrun' k) as (g' & E' & L' & Ng' & Hg').
  exists g, g'. split; [exact E|]. split; [exact E'|]. split; [exact L|]. split; [exact L'|]. split; [exact Ng|]. split; [exact Ng'|]. intros i j Hi Hj. rewrite Hg' by auto. rewrite Hg by auto.
  pose proof (run_rows m n D Hm HD zs Hrun) as En. destruct (run_tree m n D Hm HD zs Hn Hrun) as (P & M & _).
  assert (Et : to_tree (map (rmap f n p) zs) = tmap f p (to_tree zs)).
  { assert (Tl : forall ys, n = S (length ys) -> to_tree ys = at_ (forest n ys) (n + length ys - 1)).
    { intros ys Ey. unfold to_tree. replace (to_nodes ys) with (forest n ys) by (rewrite Ey; reflexivity).
      assert (Lf : length (forest n ys) = (n + length ys)%nat) by apply forest_length. revert Lf. generalize (forest n ys). intros l Ll. destruct l as [|t l _] using rev_ind; [cbn [length] in Ll; lia|].
      rewrite last_last. unfold at_. rewrite app_length in Ll. cbn [length] in Ll. rewrite app_nth2 by lia. replace (n + length ys - 1 - length l)%nat with 0%nat by lia. reflexivity. }
    rewrite !Tl by (rewrite ?map_length; exact En). rewrite map_length. rewrite <- (forest_map f n p Hp zs).
    - rewrite ren_new by lia. reflexivity.
    - lia.
    - lia.
    - intros a r Ha. destruct (nth_error_split_app _ _ _ _ Ha) as (b & Eb & La). pose proof Hrun as Hrun2. rewrite Eb in Hrun2. pose proof (inv_prefix m n D Hm HD _ _ Hrun2) as Iv. apply run_row in Hrun2. destruct Hrun2 as (H1 & H2 & _).
      pose proof (inv_range _ _ _ _ _ Iv _ H1) as R1. pose proof (inv_range _ _ _ _ _ Iv _ H2) as R2. rewrite forest_length, La in R1, R2. auto. }
  rewrite Et, (order_tree_tmap f p Hf), firstn_map.
  assert (Lv : forall q x, In q (firstn (n - clamp n k) (order_cluster_tree (to_tree zs))) -> In x (leaves q) -> (x < n)%nat).
  { intros q x Hq Hx. assert (Q : In q (order_cluster_tree (to_tree zs))) by (rewrite <- (firstn_skipn (n - clamp n k)); apply in_or_app; now left).
    eapply Permutation_in in Q; [|apply (proj2 (proj2 (order_tree _ M)))]. apply inner_sub in Q. apply (sub_leaves _ _ (proj1 Q)) in Hx. eapply Permutation_in in Hx; [|exact P]. apply in_seq in Hx. lia. }
  split.
  - intros [Q|(t & Ht & Ti & Tj)]; [left; apply Pinj; auto|]. right. apply in_map_iff in Ht. destruct Ht as (q & <- & Hq). exists q. rewrite leaves_tmap in Ti, Tj. apply in_map_iff in Ti. apply in_map_iff in Tj.
    destruct Ti as (a & Ea & Ha), Tj as (b & Eb & Hb). apply Pinj in Ea; [|eauto|auto]. apply Pinj in Eb; [|eauto|auto]. subst. auto.
  - intros [->|(q & Hq & Qi & Qj)]; [now left|]. right. exists (tmap f p q). rewrite leaves_tmap. repeat split; apply in_map; assumption.
Qed.
