(** Lemmas: clusters of a cut are far from each other; ids of the clusters. *)
From Coq Require Import Reals Lra String List Arith Lia Bool ZArith Permutation.
From Verif Require Import Base Num Sums Sim_Model Dist_Model Info_Model Feat_Model Clust_Model Clust_Spec Link_Model Link_Spec Link_Tree Link_Run Link_Cut_Props.
Import ListNotations.
Open Scope R_scope.
Lemma tree_eq_dec : forall (a b : tree), {a = b} + {a <> b}.
Proof. decide equality; [apply Nat.eq_dec|apply Req_EM_T]. Defined.

Lemma cd_unique : forall m D A B v w, monotone_method m -> cluster_distance m D A B v -> cluster_distance m D A B w -> v = w.
Proof.
  intros m D A B v w Hm HV HW. unfold cluster_distance in *. cbv zeta in *. destruct m; try (destruct Hm; fail); try congruence.
  - destruct HV as [(i & j & Hi & Hj & ->) V2], HW as [(a & b & Ha & Hb & ->) W2]. pose proof (V2 a b Ha Hb). pose proof (W2 i j Hi Hj). lra.
  - destruct HV as [(i & j & Hi & Hj & ->) V2], HW as [(a & b & Ha & Hb & ->) W2]. pose proof (V2 a b Ha Hb). pose proof (W2 i j Hi Hj). lra.
  - destruct HV as [V1 V2], HW as [W1 W2]. rewrite <- W2 in V2. apply Rsqr_inj; auto.
Qed.
Lemma update_ge_h : forall m dx dy dxy sx sy si h, monotone_method m -> 0 <= dxy -> dxy <= h -> h <= dx -> h <= dy -> 1 <= sx -> 1 <= sy -> 1 <= si ->
  h <= update m dx dy dxy sx sy si.
Proof.
  intros m dx dy dxy sx sy si h Hm H0 Hxy Hx Hy L1 L2 L3. destruct m; try (destruct Hm; fail); cbn [update].
  - apply Rmin_glb; lra.
  - pose proof (Rmax_l dx dy). lra.
  - apply (Rmult_le_reg_r (sx + sy)); [lra|]. match goal with |- _ <= ?a / ?b * ?b => replace (a / b * b) with a by (field; lra) end. nra.
  - lra.
  - rewrite <- (sqrt_square h) at 1 by lra. apply sqrt_le_1_alt. apply (Rmult_le_reg_r (sx + sy + si)); [lra|]. match goal with |- _ <= ?a / ?b * ?b => replace (a / b * b) with a by (field; lra) end.
    assert (h * h <= dx * dx) by nra. assert (h * h <= dy * dy) by nra. assert (dxy * dxy <= h * h) by nra.
    assert ((si + sx) * (h * h) <= (si + sx) * (dx * dx)) by (apply Rmult_le_compat_l; lra). assert ((si + sy) * (h * h) <= (si + sy) * (dy * dy)) by (apply Rmult_le_compat_l; lra).
    assert (si * (dxy * dxy) <= si * (h * h)) by (apply Rmult_le_compat_l; lra). nra.
Qed.

Definition low (t : tree) (h : R) : Prop := is_node t -> height t <= h.
Definition parents_high (T X : tree) (h : R) : Prop := forall p, sub p T -> child X p -> h <= height p.
Definition apart (X Y : tree) : Prop := forall i, In i (leaves X) -> In i (leaves Y) -> False.
Definition separated (m : method) (D : nat -> nat -> R) (c : clustering) (d : list tree) : Prop :=
  forall u v X Y h, In u (active c) -> In v (active c) -> sub X (at_ d u) -> sub Y (at_ d v) -> apart X Y -> low X h -> low Y h ->
  parents_high (at_ d u) X h -> parents_high (at_ d v) Y h -> ~ (X = at_ d u /\ Y = at_ d v) -> exists w, h <= w /\ tdist m D X Y w.

Lemma child_size : forall c p, child c p -> (tree_size c < tree_size p)%nat.
Proof. intros c [i|l r h] H; [destruct H|]. destruct H as [->| ->]; cbn [tree_size]; lia. Qed.
Lemma sub_proper : forall X T, sub X T -> X <> T -> exists p, sub p T /\ child X p.
Proof.
  induction 1 as [t|q l r h H IH|q l r h H IH]; intros N; [congruence| |].
  - destruct (tree_eq_dec q l) as [->|E]; [exists (Node l r h); split; [apply sub_refl|now left]|]. destruct (IH E) as (p & P1 & P2). exists p. split; [now apply sub_left|exact P2].
  - destruct (tree_eq_dec q r) as [->|E]; [exists (Node l r h); split; [apply sub_refl|now right]|]. destruct (IH E) as (p & P1 & P2). exists p. split; [now apply sub_right|exact P2].
Qed.

Lemma apart_sym : forall X Y, apart X Y -> apart Y X.
Proof. intros X Y H i A B. exact (H i B A). Qed.
Lemma sep_step : forall m n D c d x y, monotone_method m -> (forall i j, (i < n)%nat -> (j < n)%nat -> D i j = D j i) -> Inv m n D c d -> separated m D c d ->
  In x (active c) -> In y (active c) -> x <> y -> (forall u v, In u (active c) -> In v (active c) -> u <> v -> cdist c x y <= cdist c u v) ->
  forall k, separated m D (merge m c x y (length d)) (grow d (mkRow x y (cdist c x y) k)).
Proof.
  intros m n D c d x y Hm Hsym Iv Sp Hx Hy Nxy Hmin k. set (r := mkRow x y (cdist c x y) k). set (new := length d).
  pose proof (inv_range _ _ _ _ _ Iv) as Hr.
  assert (Old : forall u, In u (active c) -> at_ (grow d r) u = at_ d u) by (intros u Hu; apply at_grow_old; auto).
  assert (New : at_ (grow d r) new = Node (at_ d x) (at_ d y) (cdist c x y)) by apply at_grow_new.
  set (N := Node (at_ d x) (at_ d y) (cdist c x y)) in *. set (e := cdist c x y) in *.
  assert (InL : forall u i, In u (active c) -> In i (leaves (at_ d u)) -> (i < n)%nat).
  { intros u i Hu Hi. assert (Q : In i (seq 0 n)) by (eapply Permutation_in; [apply (inv_perm _ _ _ _ _ Iv)|]; apply in_flat_map; eauto). apply in_seq in Q. lia. }
  assert (D0 : 0 <= e) by (apply (inv_nonneg _ _ _ _ _ Iv); auto).
  assert (Lw : forall t, 1 <= INR (length (wleaves t))).
  { intros t. pose proof (wleaves_ne t). destruct (wleaves t); [congruence|]. cbn [length]. rewrite S_INR. pose proof (pos_INR (length l)). lra. }
  assert (Dis : forall u v i, In u (active c) -> In v (active c) -> In i (leaves (at_ d u)) -> In i (leaves (at_ d v)) -> u = v).
  { intros u v i Hu Hv Iu Ivv. destruct (Nat.eq_dec u v) as [E|E]; [exact E|exfalso]. pose proof (inv_perm _ _ _ _ _ Iv) as P.
    rewrite (flat_map_remove (fun u => leaves (at_ d u)) (active c) u (inv_nodup _ _ _ _ _ Iv) Hu) in P.
    assert (Nd : NoDup (leaves (at_ d u) ++ flat_map (fun u => leaves (at_ d u)) (filter (fun i => negb (Nat.eqb i u)) (active c)))) by (eapply Permutation_NoDup; [apply Permutation_sym; exact P|apply seq_NoDup]).
    apply (nodup_app_disjoint _ _ _ Nd i Iu). apply in_flat_map. exists v. split; [apply filter_In; split; [exact Hv|apply negb_true_iff, Nat.eqb_neq; auto]|exact Ivv]. }
  assert (SymT : forall X Y u v w, In u (active c) -> In v (active c) -> sub X (at_ d u) -> sub Y (at_ d v) -> tdist m D X Y w -> tdist m D Y X w).
  { intros X Y u v w Hu Hv SX SY T. apply cd_sym; [|exact T]. intros a b Ha Hb. rewrite map_app, !wleaves_fst in Ha, Hb. apply Hsym.
    - apply in_app_or in Ha. destruct Ha as [Ha|Ha]; [exact (InL u a Hu (sub_leaves _ _ SX _ Ha))|exact (InL v a Hv (sub_leaves _ _ SY _ Ha))].
    - apply in_app_or in Hb. destruct Hb as [Hb|Hb]; [exact (InL u b Hu (sub_leaves _ _ SX _ Hb))|exact (InL v b Hv (sub_leaves _ _ SY _ Hb))]. }
  (* both nodes are in the old forest *)
  assert (A : forall u v X Y h, In u (active c) -> In v (active c) -> sub X (at_ d u) -> sub Y (at_ d v) -> apart X Y -> low X h -> low Y h ->
     parents_high (at_ d u) X h -> parents_high (at_ d v) Y h -> (X = at_ d u -> Y = at_ d v -> h <= e) -> exists w, h <= w /\ tdist m D X Y w).
  { intros u v X Y h Hu Hv SX SY Ap LX LY PX PY Hroot. destruct (tree_eq_dec X (at_ d u)) as [EX|EX].
    - destruct (tree_eq_dec Y (at_ d v)) as [EY|EY]; [|apply (Sp u v X Y h); auto; intros [_ Q]; contradiction].
      assert (Nuv : u <> v). { intros ->. destruct (leaf_in X) as [i Hi]. apply (Ap i Hi). rewrite EY, <- EX. exact Hi. }
      exists (cdist c u v). split; [|rewrite EX, EY; apply (inv_dist _ _ _ _ _ Iv); auto]. specialize (Hroot EX EY). pose proof (Hmin u v Hu Hv Nuv). fold e in H. lra.
    - apply (Sp u v X Y h); auto. intros [Q _]. contradiction. }
  (* one is the new node *)
  assert (B : forall v Y h, In v (active c) -> v <> x -> v <> y -> sub Y (at_ d v) -> Y <> at_ d v -> low N h -> low Y h -> parents_high (at_ d v) Y h -> exists w, h <= w /\ tdist m D N Y w).
  { intros v Y h Hv Vx Vy SY EY LN LY PY. assert (Le : e <= h) by (apply LN; exact I).
    assert (Lx : forall u, In u (active c) -> low (at_ d u) h). { intros u Hu Nn. pose proof (inv_low _ _ _ _ _ Iv u x y Hu Nn Hx Hy Nxy). fold e in H. lra. }
    assert (Rt : forall u, In u (active c) -> parents_high (at_ d u) (at_ d u) h). { intros u Hu p Sp' Cp. apply sub_size in Sp'. apply child_size in Cp. lia. }
    assert (Apt : forall u, In u (active c) -> u <> v -> apart (at_ d u) Y). { intros u Hu E i Iu IY. apply E. apply (Dis u v i); auto. eapply sub_leaves; eauto. }
    destruct (Sp x v (at_ d x) Y h) as (w1 & W1 & T1); auto using sub_refl; [intros [_ Q]; contradiction|].
    destruct (Sp y v (at_ d y) Y h) as (w2 & W2 & T2); auto using sub_refl; [intros [_ Q]; contradiction|].
    exists (update m w1 w2 e (INR (length (wleaves (at_ d x)))) (INR (length (wleaves (at_ d y)))) (INR (length (wleaves Y)))). split.
    - apply update_ge_h; auto.
    - unfold tdist, N. cbn [wleaves]. apply cd_update; auto using wleaves_ne; try lra.
      + intros a b Ha Hb. rewrite !map_app, !wleaves_fst in Ha, Hb. apply Hsym.
        * apply in_app_or in Ha. destruct Ha as [Ha|Ha]; [exact (InL x a Hx Ha)|apply in_app_or in Ha; destruct Ha as [Ha|Ha]; [exact (InL y a Hy Ha)|exact (InL v a Hv (sub_leaves _ _ SY _ Ha))]].
        * apply in_app_or in Hb. destruct Hb as [Hb|Hb]; [exact (InL x b Hx Hb)|apply in_app_or in Hb; destruct Hb as [Hb|Hb]; [exact (InL y b Hy Hb)|exact (InL v b Hv (sub_leaves _ _ SY _ Hb))]].
      + apply (inv_dist _ _ _ _ _ Iv); auto. }
  (* where a node of the new forest is in the old one *)
  assert (Wh : forall u X h, In u (active (merge m c x y new)) -> sub X (at_ (grow d r) u) -> parents_high (at_ (grow d r) u) X h ->
     (u = new /\ X = N) \/ exists u', In u' (active c) /\ sub X (at_ d u') /\ parents_high (at_ d u') X h /\ (X = at_ d u' -> u' = x \/ u' = y -> h <= e) /\ (u = new <-> u' = x \/ u' = y) /\ (u <> new -> u' = u)).
  { intros u X h Hu SX PX. apply active_merge in Hu. destruct Hu as [(Hu & U1 & U2)| ->].
    - right. rewrite Old in * by exact Hu. exists u. split; [exact Hu|]. split; [exact SX|]. split; [exact PX|]. split; [intros _ [Q|Q]; contradiction|]. split; [|auto]. split; [|intros [Q|Q]; contradiction]. intros ->. apply Hr in Hu. unfold new in Hu. lia.
    - rewrite New in *. destruct (tree_eq_dec X N) as [E|E]; [left; auto|right]. inversion SX; subst; [congruence| |].
      + exists x. split; [exact Hx|]. split; [assumption|]. split; [intros p Q1 Q2; apply PX; [now apply sub_left|exact Q2]|]. split; [intros -> _; apply (PX N); [apply sub_refl|now left]|]. split; [split; auto|intros Q; congruence].
      + exists y. split; [exact Hy|]. split; [assumption|]. split; [intros p Q1 Q2; apply PX; [now apply sub_right|exact Q2]|]. split; [intros -> _; apply (PX N); [apply sub_refl|now right]|]. split; [split; auto|intros Q; congruence]. }
  intros u v X Y h Hu Hv SX SY Ap LX LY PX PY Nr.
  destruct (Wh u X h Hu SX PX) as [[-> ->]|(u' & Hu' & SX' & PX' & RX & UX & VX)]; destruct (Wh v Y h Hv SY PY) as [[-> ->]|(v' & Hv' & SY' & PY' & RY & UY & VY)].
  - exfalso. apply Nr. rewrite New. auto.
  - destruct (Nat.eq_dec v new) as [->|E].
    + exfalso. destruct (leaf_in Y) as [i Hi]. apply (Ap i); [|exact Hi]. rewrite <- New. exact (sub_leaves _ _ SY i Hi).
    + specialize (VY E). subst v'. assert (V1 : v <> x) by (intros Q; apply E, UY; auto). assert (V2 : v <> y) by (intros Q; apply E, UY; auto).
      assert (V3 : Y <> at_ d v) by (intros Q; apply Nr; rewrite New, (Old v) by auto; auto). exact (B v Y h Hv' V1 V2 SY' V3 LX LY PY').
  - destruct (Nat.eq_dec u new) as [->|E].
    + exfalso. destruct (leaf_in X) as [i Hi]. apply (Ap i); [exact Hi|]. rewrite <- New. exact (sub_leaves _ _ SX i Hi).
    + specialize (VX E). subst u'. assert (V1 : u <> x) by (intros Q; apply E, UX; auto). assert (V2 : u <> y) by (intros Q; apply E, UX; auto).
      assert (V3 : X <> at_ d u) by (intros Q; apply Nr; rewrite New, (Old u) by auto; auto). destruct (B u X h Hu' V1 V2 SX' V3 LY LX PX') as (w & W1 & W2).
      exists w. split; [exact W1|]. apply cd_sym; [|exact W2]. intros a b Ha Hb. rewrite map_app, !wleaves_fst in Ha, Hb. unfold N in Ha, Hb. cbn [leaves] in Ha, Hb. apply Hsym.
      * apply in_app_or in Ha. destruct Ha as [Ha|Ha]; [apply in_app_or in Ha; destruct Ha as [Ha|Ha]; [exact (InL x a Hx Ha)|exact (InL y a Hy Ha)]|exact (InL u a Hu' (sub_leaves _ _ SX' _ Ha))].
      * apply in_app_or in Hb. destruct Hb as [Hb|Hb]; [apply in_app_or in Hb; destruct Hb as [Hb|Hb]; [exact (InL x b Hx Hb)|exact (InL y b Hy Hb)]|exact (InL u b Hu' (sub_leaves _ _ SX' _ Hb))].
  - apply (A u' v' X Y h); auto. intros EX EY. destruct (Nat.eq_dec u new) as [Eu|Eu]; [apply RX; [exact EX|now apply UX]|]. destruct (Nat.eq_dec v new) as [Ev|Ev]; [apply RY; [exact EY|now apply UY]|].
    exfalso. apply Nr. specialize (VX Eu). specialize (VY Ev). subst u' v'. rewrite !Old by auto. auto.
Qed.
Lemma sep_start : forall m n D, separated m D (start n D) (leaves0 n).
Proof.
  intros m n D u v X Y h Hu Hv SX SY _ _ _ _ _ Nr. exfalso. apply Nr. apply in_seq in Hu. apply in_seq in Hv. rewrite (at_leaves0 n u) in * by lia. rewrite (at_leaves0 n v) in * by lia. inversion SX; inversion SY; auto.
Qed.
Lemma sep_prefix : forall m n D, monotone_method m -> (forall i j, (i < n)%nat -> (j < n)%nat -> 0 <= D i j /\ D i j = D j i /\ D i i = 0) ->
  forall a b, link_run m n (start n D) (a ++ b) -> separated m D (state_at m n D a) (forest n a).
Proof.
  intros m n D Hm HD a. induction a as [|r a IH] using rev_ind; intros b H; [apply sep_start|].
  rewrite <- app_assoc in H. cbn [app] in H. pose proof (IH _ H) as Sp. pose proof (inv_prefix m n D Hm HD _ _ H) as Iv. apply run_row in H.
  destruct H as (H1 & H2 & H3 & H4 & H5 & H6). rewrite state_snoc, forest_snoc. rewrite <- (forest_length a n). destruct r as [x y h k]. cbn [r_left r_right r_height r_count] in *. subst h.
  apply (sep_step m n D); auto. intros i j Hi Hj. apply HD; auto.
Qed.

(** ** Ids *)
Lemma forest_old : forall n a b u, (u < n + length a)%nat -> at_ (forest n (a ++ b)) u = at_ (forest n a) u.
Proof.
  intros n a b u Hu. induction b as [|r b IH] using rev_ind; [rewrite app_nil_r; reflexivity|]. rewrite app_assoc, forest_snoc, at_grow_old; [exact IH|]. rewrite forest_length, app_length. lia.
Qed.
Lemma members_length : forall n zs, length (members n zs) = (n + length zs)%nat.
Proof.
  intros n zs. unfold members. assert (Q : forall zs d, length (fold_left (fun d r => d ++ [map (fun p : nat * R => (fst p, snd p / 2)) (nth (r_left r) d [] ++ nth (r_right r) d [])]) zs d) = (length d + length zs)%nat).
  { induction zs0 as [|r zs0 IH]; intros d; cbn [fold_left length]; [lia|]. rewrite IH, app_length. cbn [length]. lia. }
  rewrite Q, map_length, seq_length. reflexivity.
Qed.
Lemma members_snoc : forall n zs r, members n (zs ++ [r]) = members n zs ++ [half (weighted_items n zs (r_left r) ++ weighted_items n zs (r_right r))].
Proof. intros. unfold members at 1. rewrite fold_left_app. reflexivity. Qed.
Section ids.
Variables (m : method) (n : nat) (D : nat -> nat -> R).
Hypothesis Hm : monotone_method m.
Hypothesis HD : forall i j, (i < n)%nat -> (j < n)%nat -> 0 <= D i j /\ D i j = D j i /\ D i i = 0.
Lemma row_range : forall a r b, link_run m n (start n D) (a ++ r :: b) -> (r_left r < n + length a)%nat /\ (r_right r < n + length a)%nat.
Proof.
  intros a r b H. pose proof (inv_prefix m n D Hm HD _ _ H) as Iv. apply run_row in H. destruct H as (H1 & H2 & _). rewrite <- forest_length. split; apply (inv_range _ _ _ _ _ Iv); auto.
Qed.
Lemma witems_tree : forall a b, link_run m n (start n D) (a ++ b) -> forall u, (u < n + length a)%nat -> weighted_items n a u = wleaves (at_ (forest n a) u).
Proof.
  intros a. induction a as [|r a IH] using rev_ind; intros b H u Hu.
  - cbn [length] in Hu. change (forest n []) with (leaves0 n). rewrite at_leaves0 by lia. unfold weighted_items, members. cbn [fold_left wleaves]. rewrite (nth_indep _ [] [(0%nat, 1)]) by (rewrite map_length, seq_length; lia).
    rewrite (map_nth (fun i => [(i, 1)]) (seq 0 n) 0%nat). rewrite seq_nth by lia. reflexivity.
  - rewrite <- app_assoc in H. cbn [app] in H. destruct (row_range _ _ _ H) as [R1 R2]. unfold weighted_items. rewrite members_snoc, forest_snoc. rewrite app_length in Hu. cbn [length] in Hu.
    destruct (Nat.eq_dec u (n + length a)) as [->|E].
    + rewrite app_nth2 by (rewrite members_length; lia). rewrite members_length, Nat.sub_diag. cbn [nth]. rewrite <- (forest_length a n), at_grow_new. unfold new_node. cbn [wleaves]. rewrite !(IH _ H) by auto. reflexivity.
    + rewrite app_nth1 by (rewrite members_length; lia). rewrite at_grow_old by (rewrite forest_length; lia). apply (IH _ H). lia.
Qed.
Lemma witems_old : forall a b, link_run m n (start n D) (a ++ b) -> forall u, (u < n + length a)%nat -> weighted_items n (a ++ b) u = weighted_items n a u.
Proof.
  intros a b H u Hu. rewrite (witems_tree a b H u Hu). rewrite <- (forest_old n a b u Hu). apply (witems_tree (a ++ b) []); [rewrite app_nil_r; exact H|]. rewrite app_length. lia.
Qed.
Lemma sub_id : forall a b, link_run m n (start n D) (a ++ b) -> forall u X, (u < n + length a)%nat -> sub X (at_ (forest n a) u) -> exists id, (id < n + length a)%nat /\ at_ (forest n a) id = X.
Proof.
  intros a. induction a as [|r a IH] using rev_ind; intros b H u X Hu Hs.
  - cbn [length] in *. change (forest n []) with (leaves0 n) in *. exists u. split; [exact Hu|]. rewrite at_leaves0 in * by lia. inversion Hs; subst. reflexivity.
  - rewrite <- app_assoc in H. cbn [app] in H. destruct (row_range _ _ _ H) as [R1 R2]. rewrite forest_snoc in *. rewrite app_length in *. cbn [length] in *.
    assert (G : forall v, (v < n + length a)%nat -> sub X (at_ (forest n a) v) -> exists id, (id < n + (length a + 1))%nat /\ at_ (grow (forest n a) r) id = X).
    { intros v Hv Sv. destruct (IH _ H v X Hv Sv) as (id & I1 & I2). exists id. split; [lia|]. rewrite at_grow_old by (rewrite forest_length; lia). exact I2. }
    destruct (Nat.eq_dec u (n + length a)) as [->|E].
    + rewrite <- (forest_length a n), at_grow_new in Hs. unfold new_node in Hs. inversion Hs; subst.
      * exists (n + length a)%nat. split; [lia|]. rewrite <- (forest_length a n), at_grow_new. reflexivity.
      * apply (G (r_left r)); auto.
      * apply (G (r_right r)); auto.
    + rewrite at_grow_old in Hs by (rewrite forest_length; lia). apply (G u); auto. lia.
Qed.
Lemma node_row : forall a b, link_run m n (start n D) (a ++ b) -> forall u, (u < n + length a)%nat ->
  (u < n)%nat /\ at_ (forest n a) u = Leaf u \/ (n <= u)%nat /\ exists l r, at_ (forest n a) u = Node l r (r_height (nth (u - n) a (mkRow 0 0 0 0))).
Proof.
  intros a. induction a as [|r a IH] using rev_ind; intros b H u Hu.
  - left. cbn [length] in Hu. split; [lia|]. change (forest n []) with (leaves0 n). apply at_leaves0. lia.
  - rewrite <- app_assoc in H. cbn [app] in H. rewrite forest_snoc in *. rewrite app_length in *. cbn [length] in *. destruct (Nat.eq_dec u (n + length a)) as [->|E].
    + right. split; [lia|]. replace (at_ (grow (forest n a) r) (n + length a)) with (new_node (forest n a) r) by (rewrite <- (forest_length a n), at_grow_new; reflexivity). unfold new_node. rewrite app_nth2 by lia. replace (n + length a - n - length a)%nat with 0%nat by lia. cbn [nth]. eauto.
    + rewrite at_grow_old by (rewrite forest_length; lia). destruct (IH _ H u) as [[Q1 Q2]|(Q1 & l & r' & Q2)]; [lia|left; auto|right]. split; [exact Q1|]. rewrite app_nth1 by lia. eauto.
Qed.
Lemma active_exists : forall a b, link_run m n (start n D) (a ++ b) -> forall u, In u (active (state_at m n D a)) <-> exists_after n (a ++ b) (length a) u.
Proof.
  intros a b H u. unfold exists_after. rewrite firstn_app, Nat.sub_diag, firstn_all, app_nil_r. revert b H u. induction a as [|r a IH] using rev_ind; intros b H u.
  - cbn [length]. change (state_at m n D []) with (start n D). cbn [active start]. rewrite in_seq. split; [intros Q; split; [lia|intros ? []]|intros [Q _]; lia].
  - rewrite <- app_assoc in H. cbn [app] in H. rewrite state_snoc, active_merge, (IH _ H). rewrite app_length. cbn [length]. destruct (row_range _ _ _ H) as [R1 R2]. split.
    + intros [((A1 & A2) & A3 & A4)| ->].
      * split; [lia|]. intros q Hq. apply in_app_or in Hq. destruct Hq as [Hq|[<-|[]]]; [auto|auto].
      * split; [lia|]. intros q Hq. apply in_app_or in Hq. destruct Hq as [Hq|[<-|[]]].
        -- apply in_split in Hq. destruct Hq as (l1 & l2 & ->). rewrite <- app_assoc in H. cbn [app] in H. destruct (row_range _ _ _ H) as [Q1 Q2]. rewrite app_length. cbn [length]. lia.
        -- lia.
    + intros [A1 A2]. destruct (Nat.eq_dec u (n + length a)) as [->|E]; [now right|]. left. split; [split; [lia|]|].
      * intros q Hq. apply A2. apply in_or_app. now left.
      * destruct (A2 r) as [B1 B2]; [apply in_or_app; right; now left|]. auto.
Qed.
End ids.
