(** Lemmas about linkage: what the clusters, their distances and the tree are after each row. *)
From Coq Require Import Reals Lra String List Arith Lia Bool ZArith Permutation.
From Verif Require Import Base Num Sums Sim_Model Dist_Model Info_Model Feat_Model Clust_Model Link_Model Link_Spec Link_Tree.
Import ListNotations.
Open Scope R_scope.

(** ** The update formulas *)
Lemma sum_list_app : forall a b, sum_list (a ++ b) = sum_list a + sum_list b.
Proof. unfold sum_list. induction a as [|x a IH]; intros b; cbn; [lra|]. rewrite IH. lra. Qed.
Lemma sum_list_plus : forall (A : Type) (f g : A -> R) l, sum_list (map (fun x => f x + g x) l) = sum_list (map f l) + sum_list (map g l).
Proof. unfold sum_list. intros A f g. induction l as [|x l IH]; cbn; [lra|]. rewrite IH. lra. Qed.
Lemma sum_list_scal : forall (A : Type) (f : A -> R) c l, sum_list (map (fun x => c * f x) l) = c * sum_list (map f l).
Proof. unfold sum_list. intros A f c. induction l as [|x l IH]; cbn; [lra|]. rewrite IH. lra. Qed.
Lemma sum_list_ext : forall (A : Type) (f g : A -> R) l, (forall x, In x l -> f x = g x) -> sum_list (map f l) = sum_list (map g l).
Proof. intros A f g. induction l as [|x l IH]; intros H; cbn; [reflexivity|]. unfold sum_list in IH. rewrite IH by (intros; apply H; now right). now rewrite (H x (or_introl eq_refl)). Qed.
Lemma sum_list_swap : forall (A B : Type) (f : A -> B -> R) l k, sum_list (map (fun a => sum_list (map (fun b => f a b) k)) l) = sum_list (map (fun b => sum_list (map (fun a => f a b) l)) k).
Proof.
  intros A B f l k. induction l as [|x l IH].
  - cbn. induction k as [|y k IHk]; cbn; [reflexivity|]. unfold sum_list in IHk. rewrite <- IHk. lra.
  - cbn [map]. transitivity (sum_list (map (fun b => f x b) k) + sum_list (map (fun a => sum_list (map (fun b => f a b) k)) l)); [reflexivity|]. rewrite IH. rewrite <- sum_list_plus. apply sum_list_ext. intros y _. reflexivity.
Qed.
Lemma sum_pairs_app_l : forall D A B C, sum_pairs D (A ++ B) C = sum_pairs D A C + sum_pairs D B C.
Proof. intros. unfold sum_pairs. rewrite map_app. apply sum_list_app. Qed.
Lemma sum_pairs_sym : forall D A B, (forall a b, In a A -> In b B -> D a b = D b a) -> sum_pairs D A B = sum_pairs D B A.
Proof. intros D A B H. unfold sum_pairs. rewrite sum_list_swap. apply sum_list_ext. intros b Hb. apply sum_list_ext. intros a Ha. apply H; auto. Qed.
Lemma sum_pairs_app_r : forall D A B C, sum_pairs D A (B ++ C) = sum_pairs D A B + sum_pairs D A C.
Proof. intros. unfold sum_pairs. rewrite <- sum_list_plus. apply sum_list_ext. intros a _. rewrite map_app. apply sum_list_app. Qed.

Definition half (l : list (nat * R)) : list (nat * R) := map (fun p => (fst p, snd p / 2)) l.
Lemma half_fst : forall l, map fst (half l) = map fst l.
Proof. intros. unfold half. rewrite map_map. apply map_ext. reflexivity. Qed.

Lemma cd_update : forall m D X Y I dx dy dxy, monotone_method m ->
  (forall i j, In i (map fst (X ++ Y ++ I)) -> In j (map fst (X ++ Y ++ I)) -> D i j = D j i) ->
  X <> [] -> Y <> [] -> I <> [] -> 0 <= dxy -> dxy <= dx -> dxy <= dy ->
  cluster_distance m D X I dx -> cluster_distance m D Y I dy -> cluster_distance m D X Y dxy ->
  cluster_distance m D (half (X ++ Y)) I (update m dx dy dxy (INR (length X)) (INR (length Y)) (INR (length I))).
Proof.
  intros m D X Y I dx dy dxy Hm Hsym NX NY NI H0 Hx Hy CX CY CXY. unfold cluster_distance in *. cbv zeta in *. rewrite half_fst, map_app.
  assert (LX : 1 <= INR (length X)) by (destruct X; [congruence|]; cbn [length]; rewrite S_INR; pose proof (pos_INR (length X)); lra).
  assert (LY : 1 <= INR (length Y)) by (destruct Y; [congruence|]; cbn [length]; rewrite S_INR; pose proof (pos_INR (length Y)); lra).
  assert (LI : 1 <= INR (length I)) by (destruct I; [congruence|]; cbn [length]; rewrite S_INR; pose proof (pos_INR (length I)); lra).
  destruct m; try (destruct Hm; fail); cbn [update].
  - destruct CX as [(i1 & j1 & Q1 & Q2 & Q3) Q4], CY as [(i2 & j2 & P1 & P2 & P3) P4]. split.
    + destruct (Rle_dec dx dy) as [L|L]; [rewrite Rmin_left by lra; exists i1, j1|rewrite Rmin_right by lra; exists i2, j2]; (split; [apply in_or_app; auto|split; auto]).
    + intros i j Hi Hj. apply in_app_or in Hi. pose proof (Rmin_l dx dy). pose proof (Rmin_r dx dy). destruct Hi as [Hi|Hi]; [specialize (Q4 i j Hi Hj)|specialize (P4 i j Hi Hj)]; lra.
  - destruct CX as [(i1 & j1 & Q1 & Q2 & Q3) Q4], CY as [(i2 & j2 & P1 & P2 & P3) P4]. split.
    + destruct (Rle_dec dx dy) as [L|L]; [rewrite Rmax_right by lra; exists i2, j2|rewrite Rmax_left by lra; exists i1, j1]; (split; [apply in_or_app; auto|split; auto]).
    + intros i j Hi Hj. apply in_app_or in Hi. pose proof (Rmax_l dx dy). pose proof (Rmax_r dx dy). destruct Hi as [Hi|Hi]; [specialize (Q4 i j Hi Hj)|specialize (P4 i j Hi Hj)]; lra.
  - rewrite CX, CY. unfold mean_pairs. rewrite sum_pairs_app_l, app_length, plus_INR, !map_length. field. lra.
  - rewrite CX, CY. unfold half. rewrite map_map. cbn [fst snd]. rewrite map_app, sum_list_app.
    assert (G : forall Z, sum_list (map (fun p : nat * R => sum_list (map (fun q : nat * R => snd p / 2 * snd q * D (fst p) (fst q)) I)) Z) =
      / 2 * sum_list (map (fun p : nat * R => sum_list (map (fun q : nat * R => snd p * snd q * D (fst p) (fst q)) I)) Z)).
    { intros Z. rewrite <- sum_list_scal. apply sum_list_ext. intros p _. rewrite <- sum_list_scal. apply sum_list_ext. intros q _. field. }
    rewrite !G. lra.
  - destruct CX as [_ CX], CY as [_ CY], CXY as [_ CXY]. split; [apply sqrt_pos|].
    assert (S0 : 0 <= ((INR (length I) + INR (length X)) * (dx * dx) + (INR (length I) + INR (length Y)) * (dy * dy) - INR (length I) * (dxy * dxy)) / (INR (length X) + INR (length Y) + INR (length I))).
    { apply Rmult_le_pos; [|left; apply Rinv_0_lt_compat; lra]. assert (dxy * dxy <= dx * dx) by nra. assert (0 <= dxy * dxy) by nra. assert (0 <= dx * dx) by nra. assert (0 <= dy * dy) by nra.
      assert (INR (length I) * (dxy * dxy) <= INR (length I) * (dx * dx)) by nra. nra. }
    rewrite sqrt_sqrt by exact S0. clear S0. rewrite CX, CY, CXY. unfold mean_pairs. rewrite sum_pairs_app_l, sum_pairs_app_l, !sum_pairs_app_r, app_length, plus_INR, !map_length.
    rewrite (sum_pairs_sym (squared D) (map fst Y) (map fst X)).
    2:{ intros a b Ha Hb. unfold squared. rewrite (Hsym a b); [reflexivity| |]; rewrite !map_app; apply in_or_app; [right; apply in_or_app; now left|now left]. }
    field. repeat split; lra.
Qed.
(** no new distance is below the height of the merge *)
Lemma update_ge : forall m dx dy dxy sx sy si, monotone_method m -> 0 <= dxy -> dxy <= dx -> dxy <= dy -> 1 <= sx -> 1 <= sy -> 1 <= si ->
  dxy <= update m dx dy dxy sx sy si.
Proof.
  intros m dx dy dxy sx sy si Hm H0 Hx Hy L1 L2 L3. destruct m; try (destruct Hm; fail); cbn [update].
  - apply Rmin_glb; lra.
  - pose proof (Rmax_l dx dy). lra.
  - apply (Rmult_le_reg_r (sx + sy)); [lra|]. match goal with |- _ <= ?a / ?b * ?b => replace (a / b * b) with a by (field; lra) end. nra.
  - lra.
  - rewrite <- (sqrt_square dxy) at 1 by lra. apply sqrt_le_1_alt. apply (Rmult_le_reg_r (sx + sy + si)); [lra|]. match goal with |- _ <= ?a / ?b * ?b => replace (a / b * b) with a by (field; lra) end.
    assert (dxy * dxy <= dx * dx) by nra. assert (dxy * dxy <= dy * dy) by nra.
    assert ((si + sx) * (dxy * dxy) <= (si + sx) * (dx * dx)) by (apply Rmult_le_compat_l; lra). assert ((si + sy) * (dxy * dxy) <= (si + sy) * (dy * dy)) by (apply Rmult_le_compat_l; lra). nra.
Qed.
Lemma cd_sym : forall m D X Y v, (forall i j, In i (map fst (X ++ Y)) -> In j (map fst (X ++ Y)) -> D i j = D j i) -> cluster_distance m D X Y v -> cluster_distance m D Y X v.
Proof.
  intros m D X Y v Hs C. unfold cluster_distance in *. cbv zeta in *. rewrite map_app in Hs.
  assert (Hs2 : forall i j, In i (map fst X) -> In j (map fst Y) -> D i j = D j i) by (intros; apply Hs; apply in_or_app; auto).
  destruct m.
  - destruct C as [(i & j & A & B & E) H]. split; [exists j, i; repeat split; auto; rewrite E; apply Hs2; auto|]. intros a b Ha Hb. rewrite <- (Hs2 b a) by auto. auto.
  - destruct C as [(i & j & A & B & E) H]. split; [exists j, i; repeat split; auto; rewrite E; apply Hs2; auto|]. intros a b Ha Hb. rewrite <- (Hs2 b a) by auto. auto.
  - rewrite C. unfold mean_pairs. rewrite (sum_pairs_sym D _ _ Hs2). f_equal. ring.
  - rewrite C, sum_list_swap. apply sum_list_ext. intros q Hq. apply sum_list_ext. intros p Hp. rewrite (Hs2 (fst p) (fst q)) by (apply in_map; auto). ring.
  - exact I.
  - exact I.
  - destruct C as [C0 C]. split; [exact C0|]. rewrite C. unfold mean_pairs. rewrite (sum_pairs_sym (squared D) (map fst X) (map fst Y)).
    2:{ intros a b Ha Hb. unfold squared. rewrite (Hs2 a b) by auto. reflexivity. }
    rewrite (Rmult_comm (INR (length (map fst Y))) (INR (length (map fst X)))), (Rplus_comm (INR (length (map fst Y)))). ring.
Qed.

(** ** Replaying rows *)
Definition after_row (m : method) (s : nat * clustering) (r : row) : nat * clustering := (S (fst s), merge m (snd s) (r_left r) (r_right r) (fst s)).
Definition replay (m : method) (new : nat) (c : clustering) (zs : list row) : nat * clustering := fold_left (after_row m) zs (new, c).
Lemma replay_new : forall m zs new c, fst (replay m new c zs) = (new + length zs)%nat.
Proof. intros m. induction zs as [|r zs IH]; intros new c; [cbn; lia|]. change (fst (replay m (S new) (merge m c (r_left r) (r_right r) new) zs) = (new + length (r :: zs))%nat). rewrite IH. cbn [length]. lia. Qed.
Lemma run_split : forall m a b new c, link_run m new c (a ++ b) -> link_run m (new + length a) (snd (replay m new c a)) b.
Proof.
  intros m. induction a as [|r a IH]; intros b new c H; cbn [app length] in *.
  - rewrite Nat.add_0_r. exact H.
  - inversion H; subst. match goal with |- link_run _ _ (snd (replay _ _ _ (mkRow ?x ?y _ _ :: _))) _ => change (link_run m (new + S (length a)) (snd (replay m (S new) (merge m c x y new) a)) b) end. replace (new + S (length a))%nat with (S new + length a)%nat by lia. apply IH. assumption.
Qed.
Lemma run_head : forall m new c r zs, link_run m new c (r :: zs) ->
  In (r_left r) (active c) /\ In (r_right r) (active c) /\ r_left r <> r_right r /\ r_height r = cdist c (r_left r) (r_right r) /\
  r_count r = (csize c (r_left r) + csize c (r_right r))%nat /\
  (forall u v, In u (active c) -> In v (active c) -> u <> v -> r_height r <= cdist c u v) /\ link_run m (S new) (merge m c (r_left r) (r_right r) new) zs.
Proof. intros m new c r zs H. inversion H; subst. cbn [r_left r_right r_height r_count]. repeat split; auto. Qed.

(** weighted items below a node *)
Fixpoint wleaves (t : tree) : list (nat * R) := match t with Leaf i => [(i, 1)] | Node l r _ => half (wleaves l ++ wleaves r) end.
Lemma wleaves_fst : forall t, map fst (wleaves t) = leaves t.
Proof. induction t as [i|l IHl r IHr h]; cbn [wleaves leaves]; [reflexivity|]. rewrite half_fst, map_app, IHl, IHr. reflexivity. Qed.
Lemma wleaves_len : forall t, length (wleaves t) = length (leaves t).
Proof. intros. rewrite <- wleaves_fst, map_length. reflexivity. Qed.
Lemma wleaves_ne : forall t, wleaves t <> [].
Proof. intros t E. apply (leaves_ne t). rewrite <- wleaves_fst, E. reflexivity. Qed.
Definition tdist (m : method) (D : nat -> nat -> R) (a b : tree) (v : R) : Prop := cluster_distance m D (wleaves a) (wleaves b) v.
(** the height of every node is the distance of its two parts *)
Fixpoint well (m : method) (D : nat -> nat -> R) (t : tree) : Prop := match t with Leaf _ => True | Node l r h => well m D l /\ well m D r /\ tdist m D l r h end.
Definition at_ (d : list tree) (u : nat) : tree := nth u d (Leaf 0).
Definition new_node (d : list tree) (r : row) : tree := Node (at_ d (r_left r)) (at_ d (r_right r)) (r_height r).
Definition grow (d : list tree) (r : row) : list tree := d ++ [new_node d r].

Record Inv (m : method) (n : nat) (D : nat -> nat -> R) (c : clustering) (d : list tree) : Prop := mkInv {
  inv_nodup : NoDup (active c);
  inv_range : forall u, In u (active c) -> (u < length d)%nat;
  inv_perm : Permutation (flat_map (fun u => leaves (at_ d u)) (active c)) (seq 0 n);
  inv_size : forall u, In u (active c) -> csize c u = length (leaves (at_ d u));
  inv_dist : forall u v, In u (active c) -> In v (active c) -> u <> v -> tdist m D (at_ d u) (at_ d v) (cdist c u v);
  inv_nonneg : forall u v, In u (active c) -> In v (active c) -> u <> v -> 0 <= cdist c u v;
  inv_sym : forall u v, In u (active c) -> In v (active c) -> u <> v -> cdist c u v = cdist c v u;
  inv_mono : forall u, In u (active c) -> mono (at_ d u) /\ well m D (at_ d u);
  inv_low : forall w u v, In w (active c) -> is_node (at_ d w) -> In u (active c) -> In v (active c) -> u <> v -> height (at_ d w) <= cdist c u v;
}.

Lemma at_grow_old : forall d r u, (u < length d)%nat -> at_ (grow d r) u = at_ d u.
Proof. intros. unfold at_, grow. apply app_nth1. assumption. Qed.
Lemma at_grow_new : forall d r, at_ (grow d r) (length d) = new_node d r.
Proof. intros. unfold at_, grow. rewrite app_nth2 by lia. rewrite Nat.sub_diag. reflexivity. Qed.
Lemma active_merge : forall m c x y new u, In u (active (merge m c x y new)) <-> (In u (active c) /\ u <> x /\ u <> y) \/ u = new.
Proof.
  intros. unfold merge. cbv zeta. cbn [active]. rewrite in_app_iff, filter_In. cbn [In]. rewrite andb_true_iff, !negb_true_iff, !Nat.eqb_neq. intuition.
Qed.
Lemma flat_map_remove : forall (f : nat -> list nat) l x, NoDup l -> In x l -> Permutation (flat_map f l) (f x ++ flat_map f (filter (fun i => negb (Nat.eqb i x)) l)).
Proof.
  intros f. induction l as [|a l IH]; intros x N H; [destruct H|]. inversion N; subst. cbn [filter flat_map]. destruct (Nat.eqb_spec a x) as [->|E]; cbn [negb].
  - apply Permutation_app_head. replace (filter (fun i => negb (Nat.eqb i x)) l) with l; [apply Permutation_refl|]. clear IH N H3 H. induction l as [|b l IHl]; [reflexivity|]. cbn [filter]. replace (Nat.eqb b x) with false by (symmetry; apply Nat.eqb_neq; intros ->; apply H2; now left). cbn [negb]. f_equal. apply IHl; intros Q; apply H2; now right.
  - destruct H as [->|H]; [congruence|]. cbn [flat_map]. rewrite (IH x H3 H). rewrite !app_assoc. apply Permutation_app_tail. apply Permutation_app_comm.
Qed.
Lemma filter_filter : forall (A : Type) (f g : A -> bool) l, filter f (filter g l) = filter (fun x => g x && f x) l.
Proof. intros A f g. induction l as [|x l IH]; cbn; [reflexivity|]. destruct (g x); cbn; [destruct (f x); rewrite IH; reflexivity|exact IH]. Qed.

Lemma inv_step : forall m n D c d x y, monotone_method m -> (forall i j, (i < n)%nat -> (j < n)%nat -> D i j = D j i) -> Inv m n D c d ->
  In x (active c) -> In y (active c) -> x <> y -> (forall u v, In u (active c) -> In v (active c) -> u <> v -> cdist c x y <= cdist c u v) ->
  forall k, Inv m n D (merge m c x y (length d)) (grow d (mkRow x y (cdist c x y) k)).
Proof.
  intros m n D c d x y Hm Hsym Iv Hx Hy Nxy Hmin k. set (r := mkRow x y (cdist c x y) k). set (new := length d).
  pose proof (inv_range _ _ _ _ _ Iv) as Hr.
  assert (Fresh : forall u, In u (active c) -> u <> new) by (intros u Hu E; specialize (Hr u Hu); unfold new in E; lia).
  assert (Old : forall u, In u (active c) -> at_ (grow d r) u = at_ d u) by (intros u Hu; apply at_grow_old; auto).
  assert (New : at_ (grow d r) new = Node (at_ d x) (at_ d y) (cdist c x y)) by apply at_grow_new.
  assert (InL : forall u i, In u (active c) -> In i (leaves (at_ d u)) -> (i < n)%nat).
  { intros u i Hu Hi. assert (Q : In i (seq 0 n)) by (eapply Permutation_in; [apply (inv_perm _ _ _ _ _ Iv)|]; apply in_flat_map; eauto). apply in_seq in Q. lia. }
  assert (D0 : 0 <= cdist c x y) by (apply (inv_nonneg _ _ _ _ _ Iv); auto).
  assert (Len : forall u, In u (active c) -> INR (csize c u) = INR (length (wleaves (at_ d u)))) by (intros u Hu; rewrite (inv_size _ _ _ _ _ Iv u Hu), wleaves_len; reflexivity).
  assert (Len1 : forall u, In u (active c) -> 1 <= INR (csize c u)).
  { intros u Hu. rewrite (Len u Hu). pose proof (wleaves_ne (at_ d u)). destruct (wleaves (at_ d u)); [congruence|]. cbn [length]. rewrite S_INR. pose proof (pos_INR (length l)). lra. }
  set (upd := fun i => update m (cdist c x i) (cdist c y i) (cdist c x y) (INR (csize c x)) (INR (csize c y)) (INR (csize c i))).
  assert (Upd : forall i, In i (active c) -> i <> x -> i <> y -> tdist m D (Node (at_ d x) (at_ d y) (cdist c x y)) (at_ d i) (upd i) /\ cdist c x y <= upd i).
  { intros i Hi Ex Ey. split.
    - unfold tdist, upd. cbn [wleaves]. rewrite (Len x Hx), (Len y Hy), (Len i Hi). apply cd_update; auto using wleaves_ne.
      + intros a b Ha Hb. apply Hsym.
        * rewrite !map_app, !wleaves_fst in Ha. apply in_app_or in Ha. destruct Ha as [Ha|Ha]; [exact (InL x a Hx Ha)|apply in_app_or in Ha; destruct Ha as [Ha|Ha]; [exact (InL y a Hy Ha)|exact (InL i a Hi Ha)]].
        * rewrite !map_app, !wleaves_fst in Hb. apply in_app_or in Hb. destruct Hb as [Hb|Hb]; [exact (InL x b Hx Hb)|apply in_app_or in Hb; destruct Hb as [Hb|Hb]; [exact (InL y b Hy Hb)|exact (InL i b Hi Hb)]].
      + apply (inv_dist _ _ _ _ _ Iv); auto.
      + apply (inv_dist _ _ _ _ _ Iv); auto.
      + apply (inv_dist _ _ _ _ _ Iv); auto.
    - unfold upd. apply update_ge; auto. }
  assert (CN : forall i, In i (active c) -> i <> x -> i <> y -> cdist (merge m c x y new) new i = upd i).
  { intros i Hi _ _. unfold merge. cbv zeta. cbn [cdist]. rewrite Nat.eqb_refl. reflexivity. }
  assert (CN2 : forall i, In i (active c) -> i <> x -> i <> y -> cdist (merge m c x y new) i new = upd i).
  { intros i Hi _ _. unfold merge. cbv zeta. cbn [cdist]. rewrite Nat.eqb_refl. replace (Nat.eqb i new) with false by (symmetry; apply Nat.eqb_neq; auto). reflexivity. }
  assert (CO : forall u v, In u (active c) -> In v (active c) -> cdist (merge m c x y new) u v = cdist c u v).
  { intros u v Hu Hv. unfold merge. cbv zeta. cbn [cdist]. replace (Nat.eqb u new) with false by (symmetry; apply Nat.eqb_neq; auto). replace (Nat.eqb v new) with false by (symmetry; apply Nat.eqb_neq; auto). reflexivity. }
  assert (Low : forall u v, In u (active (merge m c x y new)) -> In v (active (merge m c x y new)) -> u <> v -> cdist c x y <= cdist (merge m c x y new) u v).
  { intros u v Hu Hv Nuv. apply active_merge in Hu. apply active_merge in Hv. destruct Hu as [(Hu & U1 & U2)| -> ], Hv as [(Hv & V1 & V2)| -> ]; [rewrite CO by auto; apply Hmin; auto|rewrite CN2 by auto; apply Upd; auto|rewrite CN by auto; apply Upd; auto|congruence]. }
  constructor.
  - unfold merge. cbv zeta. cbn [active]. 
    assert (G : forall l, NoDup l -> ~ In new l -> NoDup (l ++ [new])).
    { intros l Nl Ni. apply Permutation_NoDup with (l := new :: l); [apply Permutation_cons_append|]. constructor; auto. }
    apply G; [apply NoDup_filter; apply (inv_nodup _ _ _ _ _ Iv)|]. intros H. apply filter_In in H. destruct H as [H _]. apply (Fresh new H). reflexivity.
  - intros u Hu. apply active_merge in Hu. unfold grow. rewrite app_length. cbn [length]. destruct Hu as [(Hu & _)| -> ]; [specialize (Hr u Hu); lia|unfold new; lia].
  - unfold merge. cbv zeta. cbn [active]. rewrite flat_map_app. cbn [flat_map]. rewrite app_nil_r, New. cbn [leaves].
    rewrite <- (inv_perm _ _ _ _ _ Iv).
    assert (EF : flat_map (fun u => leaves (at_ (grow d r) u)) (filter (fun i => negb (Nat.eqb i x) && negb (Nat.eqb i y)) (active c)) =
                 flat_map (fun u => leaves (at_ d u)) (filter (fun i => negb (Nat.eqb i x) && negb (Nat.eqb i y)) (active c))).
    { rewrite !flat_map_concat_map. f_equal. apply map_ext_in. intros u Hu. apply filter_In in Hu. rewrite Old by apply Hu. reflexivity. }
    rewrite EF. rewrite <- filter_filter.
    rewrite (flat_map_remove (fun u => leaves (at_ d u)) (active c) x (inv_nodup _ _ _ _ _ Iv) Hx).
    rewrite (flat_map_remove (fun u => leaves (at_ d u)) (filter (fun i => negb (Nat.eqb i x)) (active c)) y).
    + rewrite Permutation_app_comm. rewrite <- app_assoc. reflexivity.
    + apply NoDup_filter. apply (inv_nodup _ _ _ _ _ Iv).
    + apply filter_In. split; [exact Hy|]. apply negb_true_iff. apply Nat.eqb_neq. auto.
  - intros u Hu. apply active_merge in Hu. destruct Hu as [(Hu & _)| -> ].
    + rewrite Old by exact Hu. unfold merge. cbv zeta. cbn [csize]. replace (Nat.eqb u new) with false by (symmetry; apply Nat.eqb_neq; auto). apply (inv_size _ _ _ _ _ Iv); auto.
    + rewrite New. unfold merge. cbv zeta. cbn [csize leaves]. rewrite Nat.eqb_refl, app_length, (inv_size _ _ _ _ _ Iv x Hx), (inv_size _ _ _ _ _ Iv y Hy). reflexivity.
  - intros u v Hu Hv Nuv. apply active_merge in Hu. apply active_merge in Hv. destruct Hu as [(Hu & U1 & U2)| -> ], Hv as [(Hv & V1 & V2)| -> ].
    + rewrite CO, !Old by auto. apply (inv_dist _ _ _ _ _ Iv); auto.
    + rewrite CN2, (Old u), New by auto. apply cd_sym; [|apply (Upd u Hu U1 U2)]. intros a b Ha Hb. rewrite map_app, !wleaves_fst in Ha, Hb. cbn [leaves] in Ha, Hb. apply Hsym.
      * apply in_app_or in Ha. destruct Ha as [Ha|Ha]; [apply in_app_or in Ha; destruct Ha as [Ha|Ha]; [exact (InL x a Hx Ha)|exact (InL y a Hy Ha)]|exact (InL u a Hu Ha)].
      * apply in_app_or in Hb. destruct Hb as [Hb|Hb]; [apply in_app_or in Hb; destruct Hb as [Hb|Hb]; [exact (InL x b Hx Hb)|exact (InL y b Hy Hb)]|exact (InL u b Hu Hb)].
    + rewrite CN, (Old v), New by auto. apply (Upd v Hv V1 V2).
    + congruence.
  - intros u v Hu Hv Nuv. pose proof (Low u v Hu Hv Nuv). lra.
  - intros u v Hu Hv Nuv. apply active_merge in Hu. apply active_merge in Hv. destruct Hu as [(Hu & U1 & U2)| -> ], Hv as [(Hv & V1 & V2)| -> ].
    + rewrite !CO by auto. apply (inv_sym _ _ _ _ _ Iv); auto.
    + rewrite CN2, CN by auto. reflexivity.
    + rewrite CN2, CN by auto. reflexivity.
    + congruence.
  - intros u Hu. apply active_merge in Hu. destruct Hu as [(Hu & _)| -> ]; [rewrite Old by exact Hu; apply (inv_mono _ _ _ _ _ Iv); auto|]. rewrite New. cbn [mono well].
    pose proof (inv_mono _ _ _ _ _ Iv x Hx) as [M1 W1]. pose proof (inv_mono _ _ _ _ _ Iv y Hy) as [M2 W2].
    split; [split; [exact M1|split; [exact M2|split; intros Nn; apply (inv_low _ _ _ _ _ Iv); auto]]|split; [exact W1|split; [exact W2|apply (inv_dist _ _ _ _ _ Iv); auto]]].
  - intros w u v Hw Nw Hu Hv Nuv. pose proof (Low u v Hu Hv Nuv) as L. apply active_merge in Hw. destruct Hw as [(Hw & _)| -> ].
    + rewrite Old in * by exact Hw. pose proof (inv_low _ _ _ _ _ Iv w x y Hw Nw Hx Hy Nxy). lra.
    + rewrite New. cbn [height]. exact L.
Qed.

(** ** All rows *)
Definition leaves0 (n : nat) : list tree := map Leaf (seq 0 n).
Definition forest (n : nat) (zs : list row) : list tree := fold_left grow zs (leaves0 n).
Definition state_at (m : method) (n : nat) (D : nat -> nat -> R) (zs : list row) : clustering := snd (replay m n (start n D) zs).
Lemma at_leaves0 : forall n u, (u < n)%nat -> at_ (leaves0 n) u = Leaf u.
Proof. intros n u H. unfold at_, leaves0. rewrite (map_nth Leaf). rewrite seq_nth by exact H. reflexivity. Qed.
Lemma forest_length : forall zs n, length (forest n zs) = (n + length zs)%nat.
Proof.
  intros zs n. unfold forest. assert (G : forall zs d, length (fold_left grow zs d) = (length d + length zs)%nat).
  { induction zs0 as [|r zs0 IH]; intros d; cbn [fold_left length]; [lia|]. rewrite IH. unfold grow. rewrite app_length. cbn [length]. lia. }
  rewrite G. unfold leaves0. rewrite map_length, seq_length. reflexivity.
Qed.
Lemma forest_snoc : forall n zs r, forest n (zs ++ [r]) = grow (forest n zs) r.
Proof. intros. unfold forest. rewrite fold_left_app. reflexivity. Qed.
Lemma state_snoc : forall m n D zs r, state_at m n D (zs ++ [r]) = merge m (state_at m n D zs) (r_left r) (r_right r) (n + length zs).
Proof.
  intros. unfold state_at, replay. rewrite fold_left_app. cbn [fold_left]. unfold after_row at 1. cbn [snd]. f_equal.
  change (fst (replay m n (start n D) zs) = (n + length zs)%nat). apply replay_new.
Qed.

Section run.
Variables (m : method) (n : nat) (D : nat -> nat -> R).
Hypothesis Hm : monotone_method m.
Hypothesis HD : forall i j, (i < n)%nat -> (j < n)%nat -> 0 <= D i j /\ D i j = D j i /\ D i i = 0.

Lemma inv_start : Inv m n D (start n D) (leaves0 n).
Proof.
  assert (R1 : forall u, In u (active (start n D)) -> (u < n)%nat) by (intros u Hu; apply in_seq in Hu; lia).
  constructor.
  - apply seq_NoDup.
  - intros u Hu. apply R1 in Hu. unfold leaves0. rewrite map_length, seq_length. exact Hu.
  - cbn [active start]. replace (flat_map (fun u => leaves (at_ (leaves0 n) u)) (seq 0 n)) with (seq 0 n); [apply Permutation_refl|].
    rewrite flat_map_concat_map. transitivity (concat (map (fun i => [i]) (seq 0 n))).
    + clear. generalize (seq 0 n). induction l as [|x l IH]; cbn; congruence.
    + f_equal. apply map_ext_in. intros u Hu. rewrite at_leaves0 by (apply in_seq in Hu; lia). reflexivity.
  - intros u Hu. rewrite at_leaves0 by auto. reflexivity.
  - intros u v Hu Hv N. apply R1 in Hu. apply R1 in Hv. rewrite !at_leaves0 by auto. cbn [cdist start]. unfold tdist, cluster_distance. cbn [wleaves map fst]. cbv zeta.
    destruct m; try exact I.
    + split; [exists u, v; repeat split; now left|]. intros i j [<-|[]] [<-|[]]. lra.
    + split; [exists u, v; repeat split; now left|]. intros i j [<-|[]] [<-|[]]. lra.
    + unfold mean_pairs, sum_pairs, sum_list. cbn. field.
    + unfold sum_list. cbn. ring.
    + split; [apply HD; auto|]. unfold mean_pairs, sum_pairs, sum_list, squared. cbn [map fold_right length]. rewrite (proj2 (proj2 (HD u v Hu Hv))), (proj2 (proj2 (HD v u Hv Hu))). cbn. field.
  - intros u v Hu Hv N. apply HD; auto.
  - intros u v Hu Hv N. apply HD; auto.
  - intros u Hu. rewrite at_leaves0 by auto. split; exact I.
  - intros w u v Hw Nw. rewrite at_leaves0 in Nw by auto. destruct Nw.
Qed.
Lemma inv_prefix : forall a b, link_run m n (start n D) (a ++ b) -> Inv m n D (state_at m n D a) (forest n a).
Proof.
  intros a. induction a as [|r a IH] using rev_ind; intros b H.
  - apply inv_start.
  - rewrite <- app_assoc in H. cbn [app] in H. pose proof (IH _ H) as Iv. apply run_split in H. fold (state_at m n D a) in H. apply run_head in H.
    destruct H as (H1 & H2 & H3 & H4 & H5 & H6 & H7). rewrite state_snoc, forest_snoc. rewrite <- (forest_length a n). destruct r as [x y h k]. cbn [r_left r_right r_height r_count] in *. subst h.
    apply inv_step; auto. intros i j Hi Hj. apply HD; auto.
Qed.
Lemma active_length : forall a b, link_run m n (start n D) (a ++ b) -> (length (active (state_at m n D a)) + length a = n)%nat.
Proof.
  intros a. induction a as [|r a IH] using rev_ind; intros b H.
  - cbn. rewrite seq_length. lia.
  - rewrite <- app_assoc in H. cbn [app] in H. pose proof (IH _ H) as E. pose proof (inv_prefix _ _ H) as Iv. apply run_split in H. fold (state_at m n D a) in H. apply run_head in H.
    destruct H as (H1 & H2 & H3 & _). rewrite state_snoc, app_length. cbn [length]. unfold merge. cbv zeta. cbn [active]. rewrite app_length. cbn [length].
    rewrite <- filter_filter.
    assert (G : forall l x, NoDup l -> In x l -> S (length (filter (fun i => negb (Nat.eqb i x)) l)) = length l).
    { clear. induction l as [|z l IH]; intros x N H; [destruct H|]. inversion N; subst. cbn [filter length]. destruct (Nat.eqb_spec z x) as [->|E]; cbn [negb].
      - f_equal. clear IH N H3 H. induction l as [|b l IHl]; [reflexivity|]. cbn [filter]. replace (Nat.eqb b x) with false by (symmetry; apply Nat.eqb_neq; intros ->; apply H2; now left). cbn [negb length]. f_equal. apply IHl; intros Q; apply H2; now right.
      - destruct H as [->|H]; [congruence|]. cbn [length]. rewrite (IH x H3 H). reflexivity. }
    pose proof (inv_nodup _ _ _ _ _ Iv) as Nd. pose proof (G _ _ Nd H1) as E1. pose proof (G (filter (fun i => negb (Nat.eqb i (r_left r))) (active (state_at m n D a))) (r_right r)) as E2.
    specialize (E2 (NoDup_filter _ Nd)). rewrite <- E2 in E1; [lia|]. apply filter_In. split; [exact H2|]. apply negb_true_iff. apply Nat.eqb_neq. auto.
Qed.
Lemma run_end : forall zs, link_run m n (start n D) zs -> exists x, active (state_at m n D zs) = [x].
Proof.
  intros zs H. rewrite <- (app_nil_r zs) in H. apply run_split in H. fold (state_at m n D zs) in H. inversion H; subst. eauto.
Qed.
Lemma run_rows : forall zs, link_run m n (start n D) zs -> n = S (length zs).
Proof.
  intros zs H. destruct (run_end zs H) as [x Hx]. rewrite <- (app_nil_r zs) in H. pose proof (active_length _ _ H) as E. rewrite Hx in E. cbn [length] in E. lia.
Qed.
Lemma run_row : forall a r b, link_run m n (start n D) (a ++ r :: b) ->
  In (r_left r) (active (state_at m n D a)) /\ In (r_right r) (active (state_at m n D a)) /\ r_left r <> r_right r /\ r_height r = cdist (state_at m n D a) (r_left r) (r_right r) /\
  r_count r = (csize (state_at m n D a) (r_left r) + csize (state_at m n D a) (r_right r))%nat /\
  forall u v, In u (active (state_at m n D a)) -> In v (active (state_at m n D a)) -> u <> v -> r_height r <= cdist (state_at m n D a) u v.
Proof. intros a r b H. apply run_split in H. fold (state_at m n D a) in H. apply run_head in H. intuition. Qed.
Lemma heights_nonneg : forall zs, link_run m n (start n D) zs -> forall r, In r zs -> 0 <= r_height r.
Proof.
  intros zs H r Hr. apply in_split in Hr. destruct Hr as (a & b & ->). pose proof (inv_prefix _ _ H) as Iv. apply run_row in H. destruct H as (H1 & H2 & H3 & -> & _). apply (inv_nonneg _ _ _ _ _ Iv); auto.
Qed.
Lemma run_tree : forall zs, (2 <= n)%nat -> link_run m n (start n D) zs ->
  Permutation (leaves (to_tree zs)) (seq 0 n) /\ mono (to_tree zs) /\ well m D (to_tree zs) /\ length (inner (to_tree zs)) = (n - 1)%nat.
Proof.
  intros zs Hn H. pose proof (run_rows zs H) as En. destruct (run_end zs H) as [x Hx].
  assert (Iv : Inv m n D (state_at m n D zs) (forest n zs)) by (apply (inv_prefix zs []); rewrite app_nil_r; exact H).
  assert (Et : to_nodes zs = forest n zs) by (rewrite En; reflexivity).
  assert (El : to_tree zs = at_ (forest n zs) x).
  { unfold to_tree. rewrite Et. destruct zs as [|r zs _] using rev_ind; [cbn in En; lia|]. rewrite state_snoc in Hx. assert (Q : In (n + length zs)%nat (active (merge m (state_at m n D zs) (r_left r) (r_right r) (n + length zs)))) by (apply active_merge; now right).
    rewrite Hx in Q. destruct Q as [->|[]]. rewrite forest_snoc. unfold grow at 1. rewrite last_last. unfold at_. unfold grow. rewrite app_nth2; rewrite forest_length; [|lia]. rewrite Nat.sub_diag. reflexivity. }
  assert (P : Permutation (leaves (to_tree zs)) (seq 0 n)). { rewrite El. pose proof (inv_perm _ _ _ _ _ Iv) as Q. rewrite Hx in Q. cbn [flat_map] in Q. rewrite app_nil_r in Q. exact Q. }
  pose proof (inv_mono _ _ _ _ _ Iv x) as Q. rewrite Hx in Q. specialize (Q (or_introl eq_refl)). rewrite <- El in Q. split; [exact P|]. split; [apply Q|]. split; [apply Q|].
  apply Permutation_length in P. rewrite inner_length, seq_length in P. lia.
Qed.
End run.
