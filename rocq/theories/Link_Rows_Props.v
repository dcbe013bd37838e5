(** What the rows of a linkage and the clusters of an HC object are (C107). *)
From Coq Require Import Reals Lra String List Arith Lia Bool ZArith Permutation.
From Verif Require Import Base Num Sums Sim_Model Dist_Model Info_Model Feat_Model Clust_Model Clust_Spec Link_Model Link_Spec Link_Tree Link_Run Link_Cut_Props Link_Sep.
Import ListNotations.
Open Scope R_scope.

Lemma run_ext : forall m new c zs, link_run m new c zs -> forall c', active c' = active c -> (forall u, In u (active c) -> csize c' u = csize c u) ->
  (forall u v, In u (active c) -> In v (active c) -> u <> v -> cdist c' u v = cdist c u v) -> link_run m new c' zs.
Proof.
  intros m new c zs H. induction H as [new c x Ha|new c x y rows Hx Hy Nxy Hmin Hrun IH]; intros c' Ea Es Ed.
  - apply link_done with x. congruence.
  - rewrite <- (Ed x y Hx Hy Nxy), <- (Es x Hx), <- (Es y Hy). apply link_step; rewrite ?Ea; auto.
    + intros u v Hu Hv Nuv. rewrite !Ed by auto. auto.
    + assert (Eact : active (merge m c' x y new) = active (merge m c x y new)) by (unfold merge; cbv zeta; cbn [active]; now rewrite Ea).
      apply IH; [exact Eact| |].
      * intros u Hu. apply active_merge in Hu. unfold merge. cbv zeta. cbn [csize]. destruct (Nat.eqb_spec u new) as [->|E]; [rewrite (Es x Hx), (Es y Hy); reflexivity|]. apply Es. destruct Hu as [(Hu & _)| ->]; [exact Hu|congruence].
      * intros u v Hu Hv Nuv. apply active_merge in Hu. apply active_merge in Hv. unfold merge. cbv zeta. cbn [cdist].
        assert (U : forall i, In i (active c) -> i <> x -> i <> y -> update m (cdist c' x i) (cdist c' y i) (cdist c' x y) (INR (csize c' x)) (INR (csize c' y)) (INR (csize c' i)) =
                     update m (cdist c x i) (cdist c y i) (cdist c x y) (INR (csize c x)) (INR (csize c y)) (INR (csize c i))) by (intros i Hi I1 I2; rewrite !Ed, !Es by auto; reflexivity).
        destruct (Nat.eqb_spec u new) as [->|E1]; [apply U; destruct Hv as [Hv| ->]; try apply Hv; congruence|]. destruct (Nat.eqb_spec v new) as [->|E2]; [apply U; destruct Hu as [Hu| ->]; try apply Hu; congruence|].
        apply Ed; [destruct Hu as [Hu| ->]; [apply Hu|congruence]|destruct Hv as [Hv| ->]; [apply Hv|congruence]|exact Nuv].
Qed.
Lemma link_result_D : forall lk dist n D s oo m, follows_scipy lk -> distance_matrix dist n D -> method_of s = Some m -> exists zs, lk dist s oo = Ok zs /\ link_run m n (start n D) zs.
Proof.
  intros lk dist n D s oo m HL Hd Hs. destruct (link_result lk dist n D s oo m HL Hd Hs) as (zs & D' & El & Hrun & HD'). exists zs. split; [exact El|].
  apply (run_ext m n (start n D') zs Hrun); try reflexivity. intros u v Hu Hv _. cbn [cdist start active] in *. apply in_seq in Hu. apply in_seq in Hv. symmetry. apply HD'; lia.
Qed.

(** ** Rows *)
Lemma nth_error_split_app : forall (A : Type) (l : list A) k x, nth_error l k = Some x -> exists b, l = firstn k l ++ x :: b /\ length (firstn k l) = k.
Proof.
  intros A l k x H. apply nth_error_split in H. destruct H as (a & b & -> & <-). exists b. rewrite firstn_app, Nat.sub_diag, firstn_all. cbn [firstn]. rewrite app_nil_r. auto.
Qed.
(** The linkage of an object: n - 1 rows.  Row k merges two clusters that exist after the first k rows (an item is a cluster, cluster n + k is made by row
    k); its height is the distance of these two clusters in the sense of the method, no two clusters that exist at this point are
    closer, and its count is the number of items in both; heights do not decrease.  After every number of rows the clusters are a partition of the items. *)
Theorem C107_rows : forall lk dist n D s oo m, follows_scipy lk -> distance_matrix dist n D -> method_of s = Some m -> monotone_method m ->
  exists zs, fst (hc_get_linkage (scipy_with lk) (mkHC dist s oo None)) = Ok zs /\ length zs = (n - 1)%nat /\
    (forall k r, nth_error zs k = Some r ->
       exists_after n zs k (r_left r) /\ exists_after n zs k (r_right r) /\ r_left r <> r_right r /\
       r_count r = (length (items n zs (r_left r)) + length (items n zs (r_right r)))%nat /\
       cluster_distance m D (weighted_items n zs (r_left r)) (weighted_items n zs (r_right r)) (r_height r) /\
       forall u v w, exists_after n zs k u -> exists_after n zs k v -> u <> v -> cluster_distance m D (weighted_items n zs u) (weighted_items n zs v) w -> r_height r <= w) /\
    (forall k k' r r', (k <= k')%nat -> nth_error zs k = Some r -> nth_error zs k' = Some r' -> r_height r <= r_height r') /\
    (forall k i, (k <= n - 1)%nat -> (i < n)%nat -> exists u, exists_after n zs k u /\ In i (items n zs u) /\ forall v, exists_after n zs k v -> In i (items n zs v) -> v = u).
Proof.
  intros lk dist n D s oo m HL Hd Hs Hm. destruct (link_result_D lk dist n D s oo m HL Hd Hs) as (zs & El & Hrun). destruct Hd as (Hn & _ & HD). exists zs.
  pose proof (run_rows m n D Hm HD zs Hrun) as En.
  split. { unfold hc_get_linkage. cbn [hc_linkage hc_dist hc_linkage_method hc_optimal_ordering link scipy_with]. rewrite El. reflexivity. }
  split; [lia|].
  assert (Wt : forall a b, zs = a ++ b -> forall u, In u (active (state_at m n D a)) -> weighted_items n zs u = wleaves (at_ (forest n a) u)).
  { intros a b E u Hu. rewrite E in Hrun |- *. pose proof (inv_range _ _ _ _ _ (inv_prefix m n D Hm HD _ _ Hrun) u Hu) as R1. rewrite forest_length in R1.
    rewrite (witems_old m n D Hm HD a b Hrun u R1). apply (witems_tree m n D Hm HD a b Hrun u R1). }
  split; [|split].
  - intros k r Hk. destruct (nth_error_split_app _ _ _ _ Hk) as (b & E & Lk). set (a := firstn k zs) in *.
    assert (Ex : forall u, In u (active (state_at m n D a)) <-> exists_after n zs k u). { intros u. rewrite E in Hrun. rewrite (active_exists m n D Hm HD a (r :: b) Hrun u), <- E, Lk. reflexivity. }
    pose proof Hrun as Hrun2. rewrite E in Hrun2. pose proof (inv_prefix m n D Hm HD _ _ Hrun2) as Iv. apply run_row in Hrun2. destruct Hrun2 as (H1 & H2 & H3 & H4 & H5 & H6).
    split; [apply Ex; exact H1|]. split; [apply Ex; exact H2|]. split; [exact H3|]. split; [|split].
    + unfold items. rewrite !map_length, !(Wt a (r :: b) E) by auto. rewrite !wleaves_len, H5, !(inv_size _ _ _ _ _ Iv) by auto. reflexivity.
    + rewrite !(Wt a (r :: b) E) by auto. rewrite H4. apply (inv_dist _ _ _ _ _ Iv); auto.
    + intros u v w Hu Hv Nuv Hw. apply Ex in Hu. apply Ex in Hv. rewrite !(Wt a (r :: b) E) in Hw by auto. pose proof (inv_dist _ _ _ _ _ Iv u v Hu Hv Nuv) as Q. unfold tdist in Q. rewrite (cd_unique m D _ _ w _ Hm Hw Q). apply H6; auto.
  - assert (St : forall k r r', nth_error zs k = Some r -> nth_error zs (S k) = Some r' -> r_height r <= r_height r').
    { intros k r r' Hk Hk'. destruct (nth_error_split_app _ _ _ _ Hk') as (b & E & Lk). set (a := firstn (S k) zs) in *. pose proof Hrun as Hrun2. rewrite E in Hrun2. pose proof (inv_prefix m n D Hm HD _ _ Hrun2) as Iv.
      pose proof (run_row m n D _ _ _ Hrun2) as (H1 & H2 & H3 & H4 & H5 & H6). rewrite H4.
      assert (Ea : exists a0, a = a0 ++ [r] /\ length a0 = k).
      { exists (firstn k zs). split; [|rewrite firstn_length; assert (k < length zs)%nat by (apply nth_error_Some; congruence); lia]. unfold a.
        destruct (nth_error_split_app _ _ _ _ Hk) as (b0 & E0 & L0). rewrite E0 at 1. rewrite firstn_app, L0. rewrite firstn_firstn, Nat.min_r by lia. replace (S k - k)%nat with 1%nat by lia. reflexivity. }
      destruct Ea as (a0 & Ea & La).
      assert (Act : In (n + k)%nat (active (state_at m n D a))). { rewrite Ea, state_snoc, La. apply active_merge. now right. }
      assert (Hh : at_ (forest n a) (n + k) = new_node (forest n a0) r). { rewrite Ea, forest_snoc. rewrite <- La, <- (forest_length a0 n). apply at_grow_new. }
      pose proof (inv_low _ _ _ _ _ Iv (n + k) (r_left r') (r_right r') Act) as Q. rewrite Hh in Q. apply Q; auto. exact I. }
    intros k k' r r' Hkk. revert r'. induction Hkk as [|k' Hkk IH]; intros r' Hr Hr'; [rewrite Hr in Hr'; injection Hr' as <-; lra|].
    destruct (nth_error zs k') as [r1|] eqn:E1. 2:{ apply nth_error_None in E1. assert (S k' < length zs)%nat by (apply nth_error_Some; congruence). lia. }
    pose proof (IH r1 Hr eq_refl). pose proof (St k' r1 r' E1 Hr'). lra.
  - intros k i Hk Hi. set (a := firstn k zs). assert (E : zs = a ++ skipn k zs) by (symmetry; apply firstn_skipn). assert (Lk : length a = k) by (unfold a; rewrite firstn_length; lia).
    pose proof Hrun as Hrun2. rewrite E in Hrun2. pose proof (inv_prefix m n D Hm HD _ _ Hrun2) as Iv.
    assert (Ex : forall u, In u (active (state_at m n D a)) <-> exists_after n zs k u). { intros u. rewrite (active_exists m n D Hm HD a (skipn k zs) Hrun2 u), <- E, Lk. reflexivity. }
    assert (It : forall u, In u (active (state_at m n D a)) -> items n zs u = leaves (at_ (forest n a) u)). { intros u Hu. unfold items. rewrite (Wt a _ E u Hu). apply wleaves_fst. }
    pose proof (inv_perm _ _ _ _ _ Iv) as P. assert (Q : In i (flat_map (fun u => leaves (at_ (forest n a) u)) (active (state_at m n D a)))) by (eapply Permutation_in; [apply Permutation_sym; exact P|apply in_seq; lia]).
    apply in_flat_map in Q. destruct Q as (u & Hu & Hiu). exists u. split; [now apply Ex|]. split; [rewrite It by exact Hu; exact Hiu|].
    intros v Hv Hiv. apply Ex in Hv. rewrite It in Hiv by exact Hv. destruct (Nat.eq_dec v u) as [Q|Q]; [exact Q|exfalso].
    rewrite (flat_map_remove _ (active (state_at m n D a)) u (inv_nodup _ _ _ _ _ Iv) Hu) in P.
    assert (Nd : NoDup (leaves (at_ (forest n a) u) ++ flat_map (fun u => leaves (at_ (forest n a) u)) (filter (fun i => negb (Nat.eqb i u)) (active (state_at m n D a))))) by (eapply Permutation_NoDup; [apply Permutation_sym; exact P|apply seq_NoDup]).
    apply (nodup_app_disjoint _ _ _ Nd i Hiu). apply in_flat_map. exists v. split; [apply filter_In; split; [exact Hv|apply negb_true_iff, Nat.eqb_neq; auto]|exact Hiv].
Qed.
Print Assumptions C107_rows.

(** ** Clusters *)
Lemma finite_choice : forall n (P : nat -> nat -> Prop), (forall i, (i < n)%nat -> exists u, P i u) -> exists f, forall i, (i < n)%nat -> P i (f i).
Proof.
  induction n as [|n IH]; intros P H; [exists (fun _ => 0%nat); intros; lia|]. destruct (IH P) as [f Hf]; [intros; apply H; lia|]. destruct (H n) as [u Hu]; [lia|].
  exists (fun i => if Nat.eqb i n then u else f i). intros i Hi. destruct (Nat.eqb_spec i n) as [->|E]; [exact Hu|apply Hf; lia].
Qed.
Section cut.
Variables (T : tree) (n : nat).
Hypothesis Hperm : Permutation (leaves T) (seq 0 n).
Hypothesis Hmono : mono T.
Let nodes := order_cluster_tree T.
Lemma top_node : forall ps rest, nodes = ps ++ rest -> forall i, (i < n)%nat -> exists X, sub X T /\ (X = Leaf i \/ In X ps) /\ In i (leaves X) /\ forall j, together ps i j <-> In j (leaves X).
Proof.
  intros ps. induction ps as [|p ps IH] using rev_ind; intros rest E i Hi.
  - exists (Leaf i). split; [|split; [now left|split; [now left|]]].
    + assert (Q : In i (leaves T)) by (eapply Permutation_in; [apply Permutation_sym; exact Hperm|apply in_seq; lia]). clear - Q. induction T as [k|l IHl r IHr h]; cbn [leaves] in Q; [destruct Q as [<-|[]]; apply sub_refl|].
      apply in_app_or in Q. destruct Q; [apply sub_left|apply sub_right]; auto.
    + intros j. split; [intros [->|(p & [] & _)]; now left|intros [->|[]]; now left].
  - rewrite <- app_assoc in E. cbn in E. assert (Hp : sub p T /\ is_node p) by (apply (nodes_sub T Hmono); fold nodes; rewrite E; apply in_or_app; right; now left). destruct Hp as [Sp Np].
    assert (Hsub : forall q, In q ps -> sub q T) by (intros q Hq; apply (nodes_sub T Hmono); fold nodes; rewrite E; apply in_or_app; now left).
    pose proof (Hnd T n Hperm) as Nd.
    destruct (in_dec Nat.eq_dec i (leaves p)) as [Q|Q].
    + exists p. split; [exact Sp|]. split; [right; apply in_or_app; right; now left|]. split; [exact Q|]. intros j. split.
      * intros [->|(q & Hq & Q1 & Q2)]; [exact Q|]. apply in_app_or in Hq. destruct Hq as [Hq|[<-|[]]]; [|exact Q2].
        destruct p as [x|l r h]; [destruct Np|]. assert (Sq : sub q (Node l r h)).
        { assert (Anc : ~ sub (Node l r h) q). { intros Hs. pose proof (prefix_closed nodes ps (Node l r h) rest (proj1 (proj2 (order_tree T Hmono))) E q (Node l r h) Hq Hs I) as C.
            pose proof (nodes_nodup T n Hperm Hmono) as ND. fold nodes in ND. rewrite E in ND. apply NoDup_remove_2 in ND. apply ND. apply in_or_app. now left. }
          cbn [leaves] in Q. apply in_app_or in Q. destruct Q as [Q|Q].
          - destruct (share T Nd l r h q i Sp (Hsub q Hq) Q1 Q) as [C|C]; [now apply sub_left|contradiction].
          - destruct (share_r T Nd l r h q i Sp (Hsub q Hq) Q1 Q) as [C|C]; [now apply sub_right|contradiction]. }
        exact (sub_leaves _ _ Sq j Q2).
      * intros Hj. right. exists p. split; [apply in_or_app; right; now left|]. auto.
    + destruct (IH _ E i Hi) as (X & SX & HX & IX & TX). exists X. split; [exact SX|]. split; [destruct HX as [HX|HX]; [now left|right; apply in_or_app; now left]|]. split; [exact IX|]. intros j. rewrite <- TX. split.
      * intros [->|(q & Hq & Q1 & Q2)]; [now left|]. apply in_app_or in Hq. destruct Hq as [Hq|[<-|[]]]; [right; eauto|contradiction].
      * intros [->|(q & Hq & Q1 & Q2)]; [now left|]. right. exists q. split; [apply in_or_app; now left|auto].
Qed.
Lemma cut_level : (forall q, sub q T -> is_node q -> 0 <= height q) -> forall ps rest, nodes = ps ++ rest -> exists h, 0 <= h /\ (forall p, In p ps -> height p <= h) /\ (forall p, In p rest -> h <= height p).
Proof.
  intros H0 ps rest E. pose proof (proj1 (order_tree T Hmono)) as So. fold nodes in So. assert (N0 : forall p, In p nodes -> 0 <= height p) by (intros p Hp; apply (nodes_sub T Hmono) in Hp; apply H0; apply Hp).
  destruct ps as [|p ps _] using rev_ind.
  - exists 0. split; [lra|]. split; [intros p []|]. intros p Hp. apply N0. rewrite E. exact Hp.
  - exists (height p). split; [apply N0; rewrite E; apply in_or_app; left; apply in_or_app; right; now left|].
    assert (G : forall l x r, sorted (l ++ x :: r) -> (forall y, In y l -> height y <= height x) /\ forall y, In y r -> height x <= height y).
    { induction l as [|z l IHl]; intros x r Hs; cbn in Hs; destruct Hs as [S1 S2]; [split; [intros ? []|exact S1]|]. destruct (IHl _ _ S2) as [A B]. split; [|exact B]. intros y [<-|Hy]; [apply S1; apply in_or_app; right; now left|auto]. }
    rewrite E, <- app_assoc in So. cbn in So. destruct (G _ _ _ So) as [A B]. split; [|exact B]. intros q Hq. apply in_app_or in Hq. destruct Hq as [Hq|[<-|[]]]; [auto|lra].
Qed.
End cut.
Lemma well_sub : forall m D X T, sub X T -> well m D T -> well m D X.
Proof. induction 1; intros W; auto; destruct W as (W1 & W2 & _); auto. Qed.

(** two disjoint nodes whose parents are higher than h are at least h apart *)
Lemma sep_final : forall m n D zs, monotone_method m -> (forall i j, (i < n)%nat -> (j < n)%nat -> 0 <= D i j /\ D i j = D j i /\ D i i = 0) -> (2 <= n)%nat ->
  link_run m n (start n D) zs -> forall X Y h, sub X (to_tree zs) -> sub Y (to_tree zs) -> apart X Y -> low X h -> low Y h ->
  parents_high (to_tree zs) X h -> parents_high (to_tree zs) Y h -> exists w, h <= w /\ tdist m D X Y w.
Proof.
  intros m n D zs Hm HD Hn Hrun X Y h SX SY Ap LX LY PX PY. pose proof (run_rows m n D Hm HD zs Hrun) as En. set (T := to_tree zs) in *.
  assert (Hr' : link_run m n (start n D) (zs ++ [])) by (rewrite app_nil_r; exact Hrun).
  pose proof (sep_prefix m n D Hm HD zs [] Hr') as Sp. destruct (run_end m n D zs Hrun) as [x Hx].
  assert (Tx : T = at_ (forest n zs) x).
  { unfold T, to_tree. replace (to_nodes zs) with (forest n zs) by (rewrite En; reflexivity). clear - Hx Hn En. destruct zs as [|r zs _] using rev_ind; [cbn in En; lia|]. rewrite state_snoc in Hx. assert (Q : In (n + length zs)%nat (active (merge m (state_at m n D zs) (r_left r) (r_right r) (n + length zs)))) by (apply active_merge; now right).
    rewrite Hx in Q. destruct Q as [->|[]]. rewrite forest_snoc. unfold grow at 1. rewrite last_last. unfold at_. unfold grow. rewrite app_nth2; rewrite forest_length; [|lia]. rewrite Nat.sub_diag. reflexivity. }
apply (Sp x x X Y h); try (rewrite Hx; now left); rewrite <- ?Tx; auto.
  intros [EX EY]. rewrite <- EY in EX. subst Y. destruct (leaf_in X) as [l Hl]. exact (Ap l Hl Hl).
Qed.

(** everything about the groups of a cut, in terms of nodes *)
Lemma cut_nodes : forall m n D zs, monotone_method m -> (forall i j, (i < n)%nat -> (j < n)%nat -> 0 <= D i j /\ D i j = D j i /\ D i i = 0) -> (2 <= n)%nat ->
  link_run m n (start n D) zs -> forall k g, cut_tree zs k = Ok g ->
  exists h, 0 <= h /\
    (forall i, (i < n)%nat -> exists X, sub X (to_tree zs) /\ In i (leaves X) /\ low X h /\ parents_high (to_tree zs) X h /\ forall j, (j < n)%nat -> same_group g i j <-> In j (leaves X)) /\
    (forall i j X Y, (i < n)%nat -> (j < n)%nat -> ~ same_group g i j -> sub X (to_tree zs) -> sub Y (to_tree zs) ->
       (forall l, (l < n)%nat -> same_group g i l <-> In l (leaves X)) -> (forall l, (l < n)%nat -> same_group g j l <-> In l (leaves Y)) -> low X h -> low Y h -> parents_high (to_tree zs) X h -> parents_high (to_tree zs) Y h ->
       exists w, h <= w /\ tdist m D X Y w).
Proof.
  intros m n D zs Hm HD Hn Hrun k g Eg. destruct (run_tree m n D Hm HD zs Hn Hrun) as (P & M & W & L). pose proof (run_rows m n D Hm HD zs Hrun) as En.
  destruct (cut_spec m n D zs Hm HD Hn Hrun k) as (g' & Eg' & Lg & Ng & Tg). rewrite Eg in Eg'. injection Eg' as <-.
  set (T := to_tree zs) in *. set (nodes := order_cluster_tree T) in *. set (c := (n - clamp n k)%nat) in *.
  assert (E : nodes = firstn c nodes ++ skipn c nodes) by (symmetry; apply firstn_skipn).
  assert (H0 : forall q, sub q T -> is_node q -> 0 <= height q).
  { intros q Sq Nq. destruct (run_end m n D zs Hrun) as [x Hx].
    assert (Hr' : link_run m n (start n D) (zs ++ [])) by (rewrite app_nil_r; exact Hrun).
    assert (Ex : exists u, (u < n + length zs)%nat /\ T = at_ (forest n zs) u).
    { exists (n + length zs - 1)%nat. split; [lia|]. unfold T, to_tree. replace (to_nodes zs) with (forest n zs) by (rewrite En; reflexivity). unfold at_. rewrite <- (forest_length zs n).
      destruct (forest n zs) as [|t f _] using rev_ind; [reflexivity|]. rewrite last_last, app_length, app_nth2; cbn [length]; [|lia]. replace (length f + 1 - 1 - length f)%nat with 0%nat by lia. reflexivity. }
    destruct Ex as (u & Hu & ET). rewrite ET in Sq. destruct (sub_id m n D Hm HD zs [] Hr' u q Hu Sq) as (id & Hid & Eid).
    destruct (node_row m n D zs [] Hr' id Hid) as [[_ Q]|(Q1 & l & r & Q2)]; [rewrite <- Eid, Q in Nq; destruct Nq|]. rewrite <- Eid, Q2. cbn [height].
    apply (heights_nonneg m n D Hm HD zs Hrun). apply nth_In. lia. }
  destruct (cut_level T M H0 (firstn c nodes) (skipn c nodes) E) as (h & Hh0 & Hlow & Hhigh). exists h. split; [exact Hh0|].
  assert (Rng : forall X l, sub X T -> In l (leaves X) -> (l < n)%nat) by (intros X l SX Hl; exact (leaf_range T n P X l SX Hl)).
  split.
  - intros i Hi. destruct (top_node T n P M (firstn c nodes) (skipn c nodes) E i Hi) as (X & SX & HX & IX & TX). exists X. split; [exact SX|]. split; [exact IX|].
    assert (TXg : forall j, (j < n)%nat -> same_group g i j <-> In j (leaves X)) by (intros j Hj; rewrite (Tg i j Hi Hj); apply TX).
    split; [|split; [|exact TXg]].
    + intros Nn. destruct HX as [->|HX]; [destruct Nn|]. apply Hlow. exact HX.
    + intros p Sp Cp. apply Hhigh. assert (Np : is_node p) by (destruct p; [destruct Cp|exact I]). assert (Inp : In p nodes) by (apply (nodes_sub T M); auto).
      rewrite E in Inp. apply in_app_or in Inp. destruct Inp as [Inp|Inp]; [exfalso|exact Inp].
      destruct p as [a|l r e]; [destruct Np|]. pose proof (sub_nodup _ _ Sp (Hnd T n P)) as Nd. cbn [leaves] in Nd.
      assert (Sup : forall a, In a (leaves X) -> In a (leaves (Node l r e))). { intros a Ha. cbn [leaves]. apply in_or_app. destruct Cp as [<-|<-]; auto. }
      assert (Pj : forall a, In a (leaves (Node l r e)) -> In a (leaves X)). { intros a Ha. apply TX. right. exists (Node l r e). auto. }
      destruct Cp as [->| ->].
      * destruct (leaf_in r) as [a Ha]. apply (nodup_app_disjoint _ _ _ Nd a); [|exact Ha]. apply Pj. cbn [leaves]. apply in_or_app. now right.
      * destruct (leaf_in l) as [a Ha]. apply (nodup_app_disjoint _ _ _ Nd a); [exact Ha|]. apply Pj. cbn [leaves]. apply in_or_app. now left.
  - intros i j X Y Hi Hj Ns SX SY GX GY LX LY PX PY.
    apply (sep_final m n D zs Hm HD Hn Hrun X Y h SX SY); auto.
    intros l H1 H2. assert (Rl : (l < n)%nat) by (exact (Rng X l SX H1)). apply Ns. apply GX in H1; [|exact Rl]. apply GY in H2; [|exact Rl]. unfold same_group in *. congruence.
Qed.

Definition no_row : row := mkRow 0 0 0 0.
(** The clusters get_clusters(k) returns: there is a height h such that every cluster is one of the clusters of the linkage, an item or one merged at
    most at height h, and no two of them are closer than h.  ([cluster i] is the linkage's number for the cluster of item i.) *)
Theorem C107_clusters : forall lk dist n D s oo m, follows_scipy lk -> distance_matrix dist n D -> method_of s = Some m -> monotone_method m ->
  forall k, exists zs g h (cluster : nat -> nat),
    fst (hc_get_linkage (scipy_with lk) (mkHC dist s oo None)) = Ok zs /\
    fst (hc_get_clusters (scipy_with lk) (mkHC dist s oo None) k) = Ok (labels_of g) /\ 0 <= h /\
    (forall i, (i < n)%nat -> (cluster i < n + length zs)%nat /\ ((n <= cluster i)%nat -> r_height (nth (cluster i - n) zs no_row) <= h) /\
       forall j, (j < n)%nat -> same_group g i j <-> In j (items n zs (cluster i))) /\
    (forall i j v, (i < n)%nat -> (j < n)%nat -> ~ same_group g i j ->
       cluster_distance m D (weighted_items n zs (cluster i)) (weighted_items n zs (cluster j)) v -> h <= v).
Proof.
  intros lk dist n D s oo m HL Hd Hs Hm k. destruct (link_result_D lk dist n D s oo m HL Hd Hs) as (zs & El & Hrun). destruct Hd as (Hn & _ & HD).
  destruct (cut_spec m n D zs Hm HD Hn Hrun k) as (g & Eg & Lg & _). destruct (cut_nodes m n D zs Hm HD Hn Hrun k g Eg) as (h & Hh & HX & HS). pose proof (run_rows m n D Hm HD zs Hrun) as En.
  assert (Hr' : link_run m n (start n D) (zs ++ [])) by (rewrite app_nil_r; exact Hrun).
  assert (Ex : exists u, (u < n + length zs)%nat /\ to_tree zs = at_ (forest n zs) u).
  { exists (n + length zs - 1)%nat. split; [lia|]. unfold to_tree. replace (to_nodes zs) with (forest n zs) by (rewrite En; reflexivity). unfold at_. rewrite <- (forest_length zs n).
    destruct (forest n zs) as [|t f _] using rev_ind; [reflexivity|]. rewrite last_last, app_length, app_nth2; cbn [length]; [|lia]. replace (length f + 1 - 1 - length f)%nat with 0%nat by lia. reflexivity. }
  destruct Ex as (u0 & Hu0 & ET).
  destruct (finite_choice n (fun i u => (u < n + length zs)%nat /\ let X := at_ (forest n zs) u in sub X (to_tree zs) /\ In i (leaves X) /\ low X h /\ parents_high (to_tree zs) X h /\ forall j, (j < n)%nat -> same_group g i j <-> In j (leaves X))) as [f Hf].
  { intros i Hi. destruct (HX i Hi) as (X & SX & IX & LX & PX & GX). destruct (sub_id m n D Hm HD zs [] Hr' u0 X Hu0) as (id & Hid & Eid); [rewrite <- ET; exact SX|]. exists id. split; [exact Hid|]. cbv zeta. rewrite Eid. auto. }
  exists zs, g, h, f. split; [unfold hc_get_linkage; cbn [hc_linkage hc_dist hc_linkage_method hc_optimal_ordering link scipy_with]; rewrite El; reflexivity|].
  split; [unfold hc_get_clusters, hc_get_linkage; cbn [hc_linkage hc_dist hc_linkage_method hc_optimal_ordering link scipy_with]; rewrite El; cbn [fst cuttree scipy_with]; rewrite Eg; reflexivity|].
  split; [exact Hh|]. split.
  - intros i Hi. destruct (Hf i Hi) as (F1 & F2 & F3 & F4 & F5 & F6). split; [exact F1|]. split.
    + intros Hge. destruct (node_row m n D zs [] Hr' (f i) F1) as [[Q _]|(_ & l & r & Q)]; [lia|]. specialize (F4 ltac:(rewrite Q; exact I)). rewrite Q in F4. exact F4.
    + intros j Hj. rewrite (F6 j Hj). unfold items. rewrite (witems_tree m n D Hm HD zs [] Hr' (f i) F1), wleaves_fst. reflexivity.
  - intros i j v Hi Hj Ns Hv. destruct (Hf i Hi) as (F1 & F2 & F3 & F4 & F5 & F6), (Hf j Hj) as (G1 & G2 & G3 & G4 & G5 & G6). rewrite !(witems_tree m n D Hm HD zs [] Hr') in Hv by auto.
    destruct (HS i j _ _ Hi Hj Ns F2 G2 F6 G6 F4 G4 F5 G5) as (w & Hw & Tw). rewrite (cd_unique m D _ _ v w Hm Hv Tw). exact Hw.
Qed.
Print Assumptions C107_clusters.

(** ** Single and complete linkage *)
Lemma single_chain : forall D h X, (forall i j, In i (leaves X) -> In j (leaves X) -> D i j = D j i) -> well Single D X -> mono X -> low X h -> forall i j, In i (leaves X) -> In j (leaves X) -> chain D h (fun l => In l (leaves X)) i j.
Proof.
  intros D h. assert (Mono : forall (P Q : nat -> Prop) i j, (forall l, P l -> Q l) -> chain D h P i j -> chain D h Q i j).
  { intros P Q i j HPQ H. induction H; [apply chain_refl; auto|eapply chain_step; eauto]. }
  assert (Tr : forall P i k j, chain D h P i k -> chain D h P k j -> chain D h P i j).
  { intros P i k j H1. revert j. induction H1; intros; auto. eapply chain_step; eauto. }
  induction X as [a|l IHl r IHr e]; intros Hsym W M Lo i j Hi Hj.
  - destruct Hi as [<-|[]], Hj as [<-|[]]. apply chain_refl. now left.
  - destruct W as (Wl & Wr & [(p & q & Hp & Hq & Ee) _]). destruct M as (Ml & Mr & Hl & Hr). assert (He : e <= h) by (apply Lo; exact I). rewrite !wleaves_fst in *.
    assert (InL : forall t, In t (leaves l) -> In t (leaves (Node l r e))) by (intros; cbn [leaves]; apply in_or_app; auto).
    assert (InR : forall t, In t (leaves r) -> In t (leaves (Node l r e))) by (intros; cbn [leaves]; apply in_or_app; auto).
    assert (Cl : forall a b, In a (leaves l) -> In b (leaves l) -> chain D h (fun t => In t (leaves (Node l r e))) a b).
    { intros a b Ha Hb. apply (Mono _ _ a b InL). apply IHl; [intros; apply Hsym; auto|assumption|assumption|intros Q; specialize (Hl Q); lra|assumption|assumption]. }
    assert (Cr : forall a b, In a (leaves r) -> In b (leaves r) -> chain D h (fun t => In t (leaves (Node l r e))) a b).
    { intros a b Ha Hb. apply (Mono _ _ a b InR). apply IHr; [intros; apply Hsym; auto|assumption|assumption|intros Q; specialize (Hr Q); lra|assumption|assumption]. }
    cbn [leaves] in Hi, Hj. apply in_app_or in Hi. apply in_app_or in Hj. destruct Hi as [Hi|Hi], Hj as [Hj|Hj]; auto.
    + apply Tr with p; [auto|]. apply chain_step with q; [apply InL; exact Hp|lra|auto].
    + apply Tr with q; [auto|]. apply chain_step with p; [apply InR; exact Hq| |auto]. rewrite Hsym by auto. lra.
Qed.
Lemma complete_diameter : forall D h X, (forall i j, In i (leaves X) -> In j (leaves X) -> D i j = D j i /\ D i i = 0) -> 0 <= h -> well Complete D X -> mono X -> low X h -> forall i j, In i (leaves X) -> In j (leaves X) -> D i j <= h.
Proof.
  intros D h. induction X as [a|l IHl r IHr e]; intros Hsym H0 W M Lo i j Hi Hj.
  - destruct Hi as [<-|[]], Hj as [<-|[]]. rewrite (proj2 (Hsym a a ltac:(now left) ltac:(now left))). exact H0.
  - destruct W as (Wl & Wr & [_ Hmax]). destruct M as (Ml & Mr & Hl & Hr). assert (He : e <= h) by (apply Lo; exact I). rewrite !wleaves_fst in *.
    assert (InL : forall t, In t (leaves l) -> In t (leaves (Node l r e))) by (intros; cbn [leaves]; apply in_or_app; auto).
    assert (InR : forall t, In t (leaves r) -> In t (leaves (Node l r e))) by (intros; cbn [leaves]; apply in_or_app; auto).
    pose proof Hi as Hi'. pose proof Hj as Hj'. cbn [leaves] in Hi, Hj. apply in_app_or in Hi. apply in_app_or in Hj. destruct Hi as [Hi|Hi], Hj as [Hj|Hj].
    + apply IHl; [intros; apply Hsym; auto|assumption|assumption|assumption|intros Q; specialize (Hl Q); lra|assumption|assumption].
    + pose proof (Hmax i j Hi Hj). lra.
    + rewrite (proj1 (Hsym i j Hi' Hj')). pose proof (Hmax j i Hj Hi). lra.
    + apply IHr; [intros; apply Hsym; auto|assumption|assumption|assumption|intros Q; specialize (Hr Q); lra|assumption|assumption].
Qed.
(** Single linkage: there is a height h such that items of one cluster are joined by a chain of items of the cluster with steps of at most h, and items of different
    clusters are at least h apart. *)
Theorem C107_single : forall lk dist n D oo, follows_scipy lk -> distance_matrix dist n D -> forall k, exists g h,
  fst (hc_get_clusters (scipy_with lk) (mkHC dist "single" oo None) k) = Ok (labels_of g) /\ 0 <= h /\
  forall i j, (i < n)%nat -> (j < n)%nat ->
    (same_group g i j -> chain D h (fun l => (l < n)%nat /\ same_group g i l) i j) /\ (~ same_group g i j -> h <= D i j).
Proof.
  intros lk dist n D oo HL Hd k. destruct (link_result_D lk dist n D "single" oo Single HL Hd eq_refl) as (zs & El & Hrun). destruct Hd as (Hn & _ & HD). assert (Hm : monotone_method Single) by exact I.
  destruct (cut_spec Single n D zs Hm HD Hn Hrun k) as (g & Eg & Lg & _). destruct (cut_nodes Single n D zs Hm HD Hn Hrun k g Eg) as (h & Hh & HX & HS).
  destruct (run_tree Single n D Hm HD zs Hn Hrun) as (P & M & W & _). exists g, h.
  split; [unfold hc_get_clusters, hc_get_linkage; cbn [hc_linkage hc_dist hc_linkage_method hc_optimal_ordering link scipy_with]; rewrite El; cbn [fst cuttree scipy_with]; rewrite Eg; reflexivity|].
  split; [exact Hh|]. intros i j Hi Hj. destruct (HX i Hi) as (X & SX & IX & LX & PX & GX), (HX j Hj) as (Y & SY & IY & LY & PY & GY). split.
  - intros Sg. assert (Rng : forall l, In l (leaves X) -> (l < n)%nat) by (intros l; apply (leaf_range _ n P X l SX)).
    assert (C : chain D h (fun l => In l (leaves X)) i j).
    { apply single_chain; auto; [|eapply well_sub; eauto|eapply mono_sub; eauto|apply GX; auto]. intros a b Ha Hb. apply HD; auto. }
    clear - C GX Rng. revert GX. induction C as [a Ha|a b c Ha Hab C IH]; intros GX.
    + apply chain_refl. split; [auto|]. reflexivity.
    + assert (Hg : forall l, In l (leaves X) -> same_group g a l) by (intros l Hl; apply GX; auto).
      apply chain_step with b; [split; [auto|reflexivity]|exact Hab|].
      assert (Hb : In b (leaves X)) by (inversion C; subst; assumption). assert (Eab : same_group g a b) by auto.
      assert (Q : chain D h (fun l => (l < n)%nat /\ same_group g b l) b c) by (apply IH; intros l Hl; rewrite <- GX by exact Hl; unfold same_group in *; rewrite Eab; reflexivity).
      clear - Q Eab. unfold same_group in *. rewrite Eab. exact Q.
  - intros Ns. destruct (HS i j X Y Hi Hj Ns SX SY GX GY LX LY PX PY) as (w & Hw & [_ Tw]). rewrite !wleaves_fst in Tw. specialize (Tw i j IX IY). lra.
Qed.
Print Assumptions C107_single.
(** Complete linkage: items of one cluster are at most h apart, and two different clusters contain two items that are at least h apart. *)
Theorem C107_complete : forall lk dist n D oo, follows_scipy lk -> distance_matrix dist n D -> forall k, exists g h,
  fst (hc_get_clusters (scipy_with lk) (mkHC dist "complete" oo None) k) = Ok (labels_of g) /\ 0 <= h /\
  forall i j, (i < n)%nat -> (j < n)%nat ->
    (same_group g i j -> D i j <= h) /\ (~ same_group g i j -> exists a b, (a < n)%nat /\ (b < n)%nat /\ same_group g i a /\ same_group g j b /\ h <= D a b).
Proof.
  intros lk dist n D oo HL Hd k. destruct (link_result_D lk dist n D "complete" oo Complete HL Hd eq_refl) as (zs & El & Hrun). destruct Hd as (Hn & _ & HD). assert (Hm : monotone_method Complete) by exact I.
  destruct (cut_spec Complete n D zs Hm HD Hn Hrun k) as (g & Eg & Lg & _). destruct (cut_nodes Complete n D zs Hm HD Hn Hrun k g Eg) as (h & Hh & HX & HS).
  destruct (run_tree Complete n D Hm HD zs Hn Hrun) as (P & M & W & _). exists g, h.
  split; [unfold hc_get_clusters, hc_get_linkage; cbn [hc_linkage hc_dist hc_linkage_method hc_optimal_ordering link scipy_with]; rewrite El; cbn [fst cuttree scipy_with]; rewrite Eg; reflexivity|].
  split; [exact Hh|]. intros i j Hi Hj. destruct (HX i Hi) as (X & SX & IX & LX & PX & GX), (HX j Hj) as (Y & SY & IY & LY & PY & GY). split.
  - intros Sg. apply (complete_diameter D h X); auto; [|eapply well_sub; eauto|eapply mono_sub; eauto|apply GX; auto]. intros a b Ha Hb.
    apply HD; [exact (leaf_range _ n P X a SX Ha)|exact (leaf_range _ n P X b SX Hb)].
  - intros Ns. destruct (HS i j X Y Hi Hj Ns SX SY GX GY LX LY PX PY) as (w & Hw & [(a & b & Ha & Hb & E) _]). rewrite !wleaves_fst in *. pose proof (leaf_range _ n P X a SX Ha). pose proof (leaf_range _ n P Y b SY Hb).
    exists a, b. split; [assumption|]. split; [assumption|]. split; [apply GX; auto|]. split; [apply GY; auto|]. rewrite <- E. exact Hw.
Qed.
Print Assumptions C107_complete.
