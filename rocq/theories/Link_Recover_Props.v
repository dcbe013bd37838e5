(** Well-separated groups are recovered: when every distance within a group is smaller than every distance between groups, asking for that many clusters gives
    exactly the groups. *)
From Coq Require Import Reals String List Arith ZArith Lia Lra Permutation Bool.
From Verif Require Import Base Num Sums Sim_Model Dist_Model Clust_Model Link_Model Link_Spec Link_Tree Link_Run Link_Cut_Props Link_Sep Link_Rows_Props.
Import ListNotations.
Open Scope R_scope.

(** the methods whose distance of two clusters is a mean or an extreme of the distances of their items *)
Definition averaging_method (m : method) : Prop := match m with Single | Complete | Average | Weighted => True | _ => False end.

Lemma sum_list_between : forall (A : Type) (f : A -> R) l lo hi, (forall x, In x l -> lo <= f x <= hi) -> INR (length l) * lo <= sum_list (map f l) <= INR (length l) * hi.
Proof.
  induction l as [|x l IH]; intros lo hi H; [cbn; lra|]. cbn [map length]. rewrite S_INR. change (sum_list (f x :: map f l)) with (f x + sum_list (map f l)).
  pose proof (IH lo hi (fun y Hy => H y (or_intror Hy))). pose proof (H x (or_introl eq_refl)). lra.
Qed.
Lemma half_sum : forall l, sum_list (map snd (half l)) = sum_list (map snd l) / 2.
Proof. intros l. unfold half. rewrite map_map, (sum_list_ext _ _ (fun p => / 2 * snd p)) by (intros; cbn; lra). rewrite sum_list_scal. change (map (fun x : nat * R => snd x) l) with (map (@snd nat R) l). lra. Qed.
Lemma weights : forall t, sum_list (map snd (wleaves t)) = 1 /\ forall p, In p (wleaves t) -> 0 <= snd p.
Proof.
  induction t as [i|l [Il Jl] r [Ir Jr] h]; cbn [wleaves]; [split; [cbn; lra|intros p [<-|[]]; cbn; lra]|]. split.
  - rewrite half_sum, map_app, sum_list_app, Il, Ir. lra.
  - intros p Hp. unfold half in Hp. apply in_map_iff in Hp. destruct Hp as (q & <- & Hq). cbn. apply in_app_or in Hq. destruct Hq as [Hq|Hq]; [specialize (Jl q Hq)|specialize (Jr q Hq)]; lra.
Qed.
Lemma weighted_between : forall (A : Type) (w f : A -> R) l lo hi, (forall x, In x l -> 0 <= w x) -> (forall x, In x l -> lo <= f x <= hi) -> sum_list (map w l) * lo <= sum_list (map (fun x => w x * f x) l) <= sum_list (map w l) * hi.
Proof.
  induction l as [|x l IH]; intros lo hi Hw H; [cbn; lra|]. cbn [map].
  change (sum_list (w x * f x :: map (fun x => w x * f x) l)) with (w x * f x + sum_list (map (fun x => w x * f x) l)). change (sum_list (w x :: map w l)) with (w x + sum_list (map w l)).
  pose proof (IH lo hi (fun y Hy => Hw y (or_intror Hy)) (fun y Hy => H y (or_intror Hy))). pose proof (H x (or_introl eq_refl)). pose proof (Hw x (or_introl eq_refl)). nra.
Qed.
Lemma tdist_between : forall m D X Y v lo hi, averaging_method m -> tdist m D X Y v -> (forall i j, In i (leaves X) -> In j (leaves Y) -> lo <= D i j <= hi) -> lo <= v <= hi.
Proof.
  intros m D X Y v lo hi Hm T H. unfold tdist, cluster_distance in T. cbv zeta in T. rewrite !wleaves_fst in T. destruct m; try (destruct Hm; fail).
  - destruct T as [(i & j & Hi & Hj & ->) _]. auto.
  - destruct T as [(i & j & Hi & Hj & ->) _]. auto.
  - unfold mean_pairs, sum_pairs in T. assert (Lx : 0 < INR (length (leaves X))) by (apply lt_0_INR; destruct (leaves X) eqn:E; [destruct (leaves_ne X E)|cbn; lia]).
    assert (Ly : 0 < INR (length (leaves Y))) by (apply lt_0_INR; destruct (leaves Y) eqn:E; [destruct (leaves_ne Y E)|cbn; lia]).
    pose proof (sum_list_between _ (fun a => sum_list (map (fun b => D a b) (leaves Y))) (leaves X) (INR (length (leaves Y)) * lo) (INR (length (leaves Y)) * hi)) as B.
    specialize (B ltac:(intros a Ha; apply sum_list_between; auto)). rewrite T. assert (P : 0 < INR (length (leaves X)) * INR (length (leaves Y))) by (apply Rmult_lt_0_compat; assumption).
    set (s := sum_list _) in *. split; apply Rmult_le_reg_r with (INR (length (leaves X)) * INR (length (leaves Y))); auto; unfold Rdiv; rewrite Rmult_assoc, Rinv_l, Rmult_1_r by lra; lra.
  - destruct (weights X) as [Sx Px], (weights Y) as [Sy Py]. rewrite T.
    rewrite (sum_list_ext _ _ (fun p => snd p * sum_list (map (fun q => snd q * D (fst p) (fst q)) (wleaves Y)))).
    + pose proof (weighted_between _ (@snd nat R) (fun p => sum_list (map (fun q => snd q * D (fst p) (fst q)) (wleaves Y))) (wleaves X) lo hi Px) as B. change (map (fun x : nat * R => snd x) (wleaves X)) with (map (@snd nat R) (wleaves X)) in B. rewrite Sx, !Rmult_1_l in B. apply B.
      intros p Hp. pose proof (weighted_between _ (@snd nat R) (fun q => D (fst p) (fst q)) (wleaves Y) lo hi Py) as C. change (map (fun x : nat * R => snd x) (wleaves Y)) with (map (@snd nat R) (wleaves Y)) in C. rewrite Sy, !Rmult_1_l in C. apply C.
      intros q Hq. apply H; rewrite <- wleaves_fst; now apply in_map.
    + intros p Hp. rewrite <- sum_list_scal. apply sum_list_ext. intros; ring.
Qed.
Lemma same_count : forall n k (f g : nat -> nat), (forall i, (i < n)%nat -> (f i < k)%nat /\ (g i < k)%nat) -> (forall c, (c < k)%nat -> exists i, (i < n)%nat /\ f i = c) -> (forall c, (c < k)%nat -> exists i, (i < n)%nat /\ g i = c) ->
  (forall i j, (i < n)%nat -> (j < n)%nat -> f i = f j -> g i = g j) -> forall i j, (i < n)%nat -> (j < n)%nat -> g i = g j -> f i = f j.
Proof.
  intros n k f g Hr Hf Hg H i j Hi Hj E. destruct (finite_choice k (fun c i => (i < n)%nat /\ f i = c) Hf) as [r Hrr].
  assert (ND : NoDup (map (fun c => g (r c)) (seq 0 k))).
  { apply (@NoDup_incl_NoDup nat (seq 0 k)); [apply seq_NoDup|rewrite map_length; lia|]. intros c Hc. apply in_seq in Hc. destruct (Hg c) as (a & Ha & Ea); [lia|]. apply in_map_iff.
    exists (f a). split; [|apply in_seq; destruct (Hr a Ha); lia]. destruct (Hrr (f a)) as [R1 R2]; [apply Hr; exact Ha|]. rewrite <- Ea. apply H; auto. }
  assert (Inj : forall a b, In a (seq 0 k) -> In b (seq 0 k) -> g (r a) = g (r b) -> a = b).
  { clear - ND. induction (seq 0 k) as [|c l IH]; intros a b Ha Hb E; [destruct Ha|]. cbn in ND. inversion ND as [|? ? N1 N2]; subst. destruct Ha as [<-|Ha], Hb as [<-|Hb]; auto.
    - destruct N1. rewrite E. now apply (in_map (fun c => g (r c))).
    - destruct N1. rewrite <- E. now apply (in_map (fun c => g (r c))). }
  destruct (Hr i Hi) as [Fi _], (Hr j Hj) as [Fj _]. destruct (Hrr _ Fi) as [R1 R2], (Hrr _ Fj) as [R3 R4]. apply Inj; [apply in_seq; lia|apply in_seq; lia|].
  rewrite (H (r (f i)) i), (H (r (f j)) j); auto.
Qed.

Section classes.
Variables (T : tree) (cls : nat -> nat).
Definition pure (X : tree) : Prop := forall i j, In i (leaves X) -> In j (leaves X) -> cls i = cls j.
Lemma pure_dec : forall X, {pure X} + {~ pure X}.
Proof.
  intros X. destruct (forallb (fun i => forallb (fun j => Nat.eqb (cls i) (cls j)) (leaves X)) (leaves X)) eqn:E.
  - left. intros i j Hi Hj. rewrite forallb_forall in E. specialize (E i Hi). rewrite forallb_forall in E. apply Nat.eqb_eq. auto.
  - right. intros P. rewrite <- not_true_iff_false in E. apply E. apply forallb_forall. intros i Hi. apply forallb_forall. intros j Hj. apply Nat.eqb_eq. auto.
Qed.
Lemma pure_sub : forall X Y, sub X Y -> pure Y -> pure X.
Proof. intros X Y H P i j Hi Hj. apply P; eapply sub_leaves; eauto. Qed.
Lemma max_pure : NoDup (leaves T) -> forall i, In i (leaves T) -> exists X, sub X T /\ In i (leaves X) /\ pure X /\ forall p, sub p T -> child X p -> ~ pure p.
Proof.
  induction T as [a|l IHl r IHr h]; intros Nd i Hi.
  - exists (Leaf a). split; [apply sub_refl|]. split; [exact Hi|]. split; [intros x y [<-|[]] [<-|[]]; reflexivity|]. intros p Sp Cp. inversion Sp; subst. destruct Cp.
  - destruct (pure_dec (Node l r h)) as [P|P].
    + exists (Node l r h). split; [apply sub_refl|]. split; [exact Hi|]. split; [exact P|]. intros p Sp Cp. apply child_size in Cp. apply sub_size in Sp. lia.
    + cbn [leaves] in Hi, Nd. assert (Rest : forall c c' X, sub X c -> (forall p, sub p c -> child X p -> ~ pure p) -> (forall x, In x (leaves c) -> In x (leaves c') -> False) -> (forall q, sub q (Node l r h) -> q = Node l r h \/ sub q c \/ sub q c') -> forall p, sub p (Node l r h) -> child X p -> ~ pure p).
      { intros c c' X SX HX Hd Hq p Sp Cp. destruct (Hq p Sp) as [->|[S1|S1]]; auto. exfalso. destruct (leaf_in X) as [x Hx]. apply (Hd x); [eapply sub_leaves; eauto|]. apply (sub_leaves p c' S1). destruct p; [destruct Cp|]. cbn [leaves]. apply in_or_app. destruct Cp as [->| ->]; auto. }
      apply in_app_or in Hi. destruct Hi as [Hi|Hi].
      * destruct (IHl (NoDup_app_remove_r _ _ _ Nd) i Hi) as (X & S1 & I1 & P1 & Q1). exists X. split; [now apply sub_left|]. split; [exact I1|]. split; [exact P1|].
        apply (Rest l r X S1 Q1); [exact (nodup_app_disjoint _ _ _ Nd)|]. intros q Sq. inversion Sq; subst; auto.
      * destruct (IHr (NoDup_app_remove_l _ _ _ Nd) i Hi) as (X & S1 & I1 & P1 & Q1). exists X. split; [now apply sub_right|]. split; [exact I1|]. split; [exact P1|].
        apply (Rest r l X S1 Q1); [intros x H1 H2; exact (nodup_app_disjoint _ _ _ Nd x H2 H1)|]. intros q Sq. inversion Sq; subst; auto.
Qed.
End classes.

Lemma labels_inj : forall a g, labels_of a = labels_of g -> a = g.
Proof. induction a as [|x a IH]; intros [|y g] E; try discriminate; [reflexivity|]. unfold labels_of in E. cbn [map] in E. injection E as E1 E2. apply INR_eq in E1. rewrite (IH g E2). congruence. Qed.

(** Well-separated groups: distances within a group at most a, between groups at least b > a.  [group i] is the group of item i.  For every number of clusters,
    the clusters are parts of groups or the groups are parts of clusters. *)
Theorem C107_nested_with_groups : forall lk dist n D s oo m a b (group : nat -> nat), follows_scipy lk -> distance_matrix dist n D -> method_of s = Some m -> averaging_method m -> a < b ->
  (forall i j, (i < n)%nat -> (j < n)%nat -> group i = group j -> D i j <= a) -> (forall i j, (i < n)%nat -> (j < n)%nat -> group i <> group j -> b <= D i j) ->
  forall k, exists g, fst (hc_get_clusters (scipy_with lk) (mkHC dist s oo None) k) = Ok (labels_of g) /\
    ((forall i j, (i < n)%nat -> (j < n)%nat -> same_group g i j -> group i = group j) \/
     (forall i j, (i < n)%nat -> (j < n)%nat -> group i = group j -> same_group g i j)).
Proof.
  intros lk dist n D s oo m a b group HL Hd Hs Ha Hab Hin Hout k. assert (Hm : monotone_method m) by (destruct m; exact I || destruct Ha).
  destruct (link_result_D lk dist n D s oo m HL Hd Hs) as (zs & El & Hrun). destruct Hd as (Hn & _ & HD).
  destruct (cut_spec m n D zs Hm HD Hn Hrun k) as (g & Eg & Lg & _). destruct (cut_nodes m n D zs Hm HD Hn Hrun _ g Eg) as (h & Hh & HX & HS).
  destruct (run_tree m n D Hm HD zs Hn Hrun) as (P & M & W & _). pose proof (Hnd _ n P) as Nd. set (T := to_tree zs) in *.
  exists g. split; [unfold hc_get_clusters, hc_get_linkage; cbn [hc_linkage hc_dist hc_linkage_method hc_optimal_ordering link scipy_with]; rewrite El; cbn [fst cuttree scipy_with]; rewrite Eg; reflexivity|].
  assert (Rng : forall X i, sub X T -> In i (leaves X) -> (i < n)%nat) by (intros X i; apply (leaf_range T n P)).
  assert (All : forall i, (i < n)%nat -> In i (leaves T)) by (intros i Hi; eapply Permutation_in; [apply Permutation_sym; exact P|apply in_seq; lia]).
  (* heights: at most a for a node within a group, at least b otherwise *)
  assert (Hpure : forall X, sub X T -> is_node X -> pure group X -> height X <= a).
  { intros X SX NX PX. destruct X as [x|l r e]; [destruct NX|]. pose proof (well_sub _ _ _ _ SX W) as (_ & _ & We). apply (tdist_between m D l r e 0 a Ha We).
    intros i j Hi Hj. assert (Ii : In i (leaves (Node l r e))) by (cbn [leaves]; apply in_or_app; now left). assert (Ij : In j (leaves (Node l r e))) by (cbn [leaves]; apply in_or_app; now right).
    split; [apply HD; eauto|]. apply Hin; eauto. }
  assert (Himp : forall X, sub X T -> ~ pure group X -> is_node X /\ b <= height X).
  { induction X as [x|l IHl r IHr e]; intros SX NP; [destruct NP; intros u v [<-|[]] [<-|[]]; reflexivity|]. split; [exact I|].
    assert (Sl : sub l T) by (apply sub_trans with (Node l r e); [apply sub_left, sub_refl|exact SX]). assert (Sr : sub r T) by (apply sub_trans with (Node l r e); [apply sub_right, sub_refl|exact SX]).
    pose proof (mono_sub _ _ SX M) as (_ & _ & Ml & Mr).
    destruct (pure_dec group l) as [Pl|Pl]; [|destruct (IHl Sl Pl) as [Q1 Q2]; cbn [height]; specialize (Ml Q1); lra].
    destruct (pure_dec group r) as [Pr|Pr]; [|destruct (IHr Sr Pr) as [Q1 Q2]; cbn [height]; specialize (Mr Q1); lra].
    pose proof (well_sub _ _ _ _ SX W) as (_ & _ & We).
    assert (Dif : forall i j, In i (leaves l) -> In j (leaves r) -> group i <> group j).
    { intros i j Hi Hj E. apply NP. assert (C : forall u, In u (leaves (Node l r e)) -> group u = group i). { intros u Hu. cbn [leaves] in Hu. apply in_app_or in Hu. destruct Hu as [Hu|Hu]; [now apply Pl|rewrite E; now apply Pr]. }
      intros u v Hu Hv. rewrite (C u Hu), (C v Hv). reflexivity. }
    cbn [height]. assert (Hi : forall i j, In i (leaves l) -> In j (leaves r) -> D i j <= sum_list (map (fun i => sum_list (map (fun j => D i j) (seq 0 n))) (seq 0 n))).
    { intros i j Hi Hj. assert (Sin : forall (f : nat -> R) L x, (forall y, In y L -> 0 <= f y) -> In x L -> f x <= sum_list (map f L)).
      { clear. intros f L. induction L as [|y L IH]; intros x H Hx; [destruct Hx|]; destruct Hx as [<-|Hx]; cbn [map]; match goal with |- _ <= sum_list (?q :: ?t) => change (sum_list (q :: t)) with (q + sum_list t) end.
        - assert (0 <= sum_list (map f L)); [|lra]. clear IH. induction L as [|z L IH]; [cbn; lra|]. cbn [map]. change (sum_list (f z :: map f L)) with (f z + sum_list (map f L)). pose proof (H z ltac:(right; now left)). assert (0 <= sum_list (map f L)) by (apply IH; intros t [<-|Ht]; apply H; [now left|right; now right]). lra.
        - pose proof (H y (or_introl eq_refl)). pose proof (IH x (fun t Ht => H t (or_intror Ht)) Hx). lra. }
      pose proof (Rng l i Sl Hi). pose proof (Rng r j Sr Hj).
      apply Rle_trans with (sum_list (map (fun j => D i j) (seq 0 n))); [apply (Sin (fun j => D i j)); [intros y Hy; apply in_seq in Hy; apply HD; lia|apply in_seq; lia]|].
      apply (Sin (fun i => sum_list (map (fun j => D i j) (seq 0 n)))); [|apply in_seq; lia]. intros y Hy. apply in_seq in Hy. eapply Rle_trans; [|apply (Sin (fun j => D y j) (seq 0 n) 0%nat); [intros z Hz; apply in_seq in Hz; apply HD; lia|apply in_seq; lia]]. apply HD; lia. }
    refine (proj1 (tdist_between m D l r e b (sum_list (map (fun i => sum_list (map (fun j => D i j) (seq 0 n))) (seq 0 n))) Ha We _)). intros i j Ii Ij. split; [|apply Hi; assumption]. apply Hout; eauto. }
  (* the items of a group are those of one node *)
  assert (Node_of : forall i, (i < n)%nat -> exists X, sub X T /\ pure group X /\ In i (leaves X) /\ forall j, (j < n)%nat -> group i = group j -> In j (leaves X)).
  { intros i Hi. destruct (max_pure T group Nd i (All i Hi)) as (X & SX & IX & PX & QX). exists X. split; [exact SX|]. split; [exact PX|]. split; [exact IX|]. intros j Hj E.
    destruct (in_dec Nat.eq_dec j (leaves X)) as [Q|Q]; [exact Q|exfalso]. destruct (max_pure T group Nd j (All j Hj)) as (Y & SY & IY & PY & QY).
    assert (HaX : 0 <= a) by (pose proof (Hin i i Hi Hi eq_refl); destruct (HD i i Hi Hi) as (_ & _ & Z0); lra).
    assert (Low : forall Z, sub Z T -> pure group Z -> low Z b) by (intros Z SZ PZ NZ; pose proof (Hpure Z SZ NZ PZ); lra).
    assert (High : forall Z, (forall p, sub p T -> child Z p -> ~ pure group p) -> parents_high T Z b) by (intros Z QZ p Sp Cp; apply (Himp p Sp (QZ p Sp Cp))).
    assert (Ap : apart X Y).
    { assert (Nest : forall A B, sub A T -> sub B T -> sub A B -> A <> B -> (forall p, sub p T -> child A p -> ~ pure group p) -> pure group B -> False).
      { intros A B SA SB AB NAB QA PB. destruct (sub_proper A B AB NAB) as (p & Sp & Cp). apply (QA p); [exact (sub_trans _ _ _ Sp SB)|exact Cp|]. exact (pure_sub group _ _ Sp PB). }
      intros x H1 H2. assert (Cmp : sub X Y \/ sub Y X).
      { destruct X as [y|l r e]; [left; destruct H1 as [<-|[]]; clear - H2; induction Y as [z|l IHl r IHr e]; [destruct H2 as [<-|[]]; apply sub_refl|]; cbn [leaves] in H2; apply in_app_or in H2; destruct H2; [apply sub_left|apply sub_right]; auto|].
        cbn [leaves] in H1. apply in_app_or in H1. destruct H1 as [H1|H1].
        - destruct (share T Nd l r e Y x SX SY H2 H1) as [C|C]; [right; now apply sub_left|now left].
        - destruct (share_r T Nd l r e Y x SX SY H2 H1) as [C|C]; [right; now apply sub_right|now left]. }
      assert (Ne : X <> Y) by (intros ->; contradiction). destruct Cmp as [C|C]; [exact (Nest X Y SX SY C Ne QX PY)|exact (Nest Y X SY SX C (not_eq_sym Ne) QY PX)]. }
    destruct (sep_final m n D zs Hm HD Hn Hrun X Y b SX SY Ap (Low X SX PX) (Low Y SY PY) (High X QX) (High Y QY)) as (w & Hw & Tw).
    assert (w <= a); [|lra]. apply (tdist_between m D X Y w 0 a Ha Tw). intros u v Hu Hv. split; [apply HD; eauto|]. apply Hin; eauto. rewrite (PX u i Hu IX), E. now apply PY. }
  assert (Dec : (forall i X, (i < n)%nat -> sub X T -> In i (leaves X) -> low X h -> parents_high T X h -> (forall j, (j < n)%nat -> same_group g i j <-> In j (leaves X)) -> pure group X) \/ b <= h).
  { destruct (Rle_dec b h) as [Q|Q]; [now right|left]. intros i X Hi SX IX LX PX GX. destruct (pure_dec group X) as [C|C]; [exact C|]. destruct (Himp X SX C) as [NX BX]. specialize (LX NX). lra. }
  destruct Dec as [Dec|Dec].
  - left. intros i j Hi Hj E. destruct (HX i Hi) as (X & SX & IX & LX & PX & GX). apply (Dec i X Hi SX IX LX PX GX); [exact IX|]. apply GX; auto.
  - right. intros i j Hi Hj E. destruct (HX i Hi) as (X & SX & IX & LX & PX & GX). apply GX; [exact Hj|]. destruct (Node_of i Hi) as (Y & SY & PY & IY & AY). specialize (AY j Hj E).
      assert (Cmp : sub Y X \/ (sub X Y /\ X <> Y)).
      { destruct X as [y|l r e]; [destruct (tree_eq_dec (Leaf y) Y) as [<-|Ne]; [left; apply sub_refl|right; split; [|exact Ne]]; destruct IX as [<-|[]]; clear - IY; induction Y as [z|l IHl r IHr e]; [destruct IY as [<-|[]]; apply sub_refl|]; cbn [leaves] in IY; apply in_app_or in IY; destruct IY; [apply sub_left|apply sub_right]; auto|].
        destruct (tree_eq_dec (Node l r e) Y) as [<-|Ne]; [left; apply sub_refl|]. cbn [leaves] in IX. apply in_app_or in IX. destruct IX as [H1|H1].
        - destruct (share T Nd l r e Y i SX SY IY H1) as [C|C]; [left; now apply sub_left|now right].
        - destruct (share_r T Nd l r e Y i SX SY IY H1) as [C|C]; [left; now apply sub_right|now right]. }
      destruct Cmp as [C|[C Ne]]; [exact (sub_leaves _ _ C j AY)|]. exfalso. destruct (sub_proper X Y C Ne) as (p & Sp & Cp). assert (SpT : sub p T) by exact (sub_trans _ _ _ Sp SY). pose proof (PX p SpT Cp) as Hp.
      assert (Np : is_node p) by (destruct p; [destruct Cp|exact I]). pose proof (Hpure p SpT Np (pure_sub group _ _ Sp PY)). lra.
Qed.
Print Assumptions C107_nested_with_groups.

(** With as many clusters as there are groups, the clusters are the groups.  The groups are numbered 0 .. k-1. *)
Theorem C107_recovers : forall lk dist n D s oo m a b k (group : nat -> nat), follows_scipy lk -> distance_matrix dist n D -> method_of s = Some m -> averaging_method m ->
  (forall i, (i < n)%nat -> (group i < k)%nat) -> (forall c, (c < k)%nat -> exists i, (i < n)%nat /\ group i = c) -> a < b ->
  (forall i j, (i < n)%nat -> (j < n)%nat -> group i = group j -> D i j <= a) -> (forall i j, (i < n)%nat -> (j < n)%nat -> group i <> group j -> b <= D i j) ->
  exists g, fst (hc_get_clusters (scipy_with lk) (mkHC dist s oo None) (Z.of_nat k)) = Ok (labels_of g) /\
    forall i j, (i < n)%nat -> (j < n)%nat -> same_group g i j <-> group i = group j.
Proof.
  intros lk dist n D s oo m a b k group HL Hd Hs Ha Hk Hsur Hab Hin Hout. assert (Hm : monotone_method m) by (destruct m; exact I || destruct Ha).
  destruct (C107_nested_with_groups lk dist n D s oo m a b group HL Hd Hs Ha Hab Hin Hout (Z.of_nat k)) as (g & E & Dec). exists g. split; [exact E|].
  destruct (C106_clusters lk dist n D s oo m HL Hd Hs Hm) as (groups & Hg & _). destruct (Hg (Z.of_nat k)) as (E' & Lg & [Ng _]). rewrite E in E'. injection E' as E'. apply labels_inj in E'. rewrite <- E' in Lg, Ng. clear E' Hg groups. assert (Hn : (2 <= n)%nat) by apply Hd.
  assert (Kn : (1 <= k <= n)%nat).
  { split; [specialize (Hk 0%nat ltac:(lia)); lia|]. destruct (finite_choice k (fun c i => (i < n)%nat /\ group i = c) Hsur) as [r Hr].
    assert (Q : NoDup (map r (seq 0 k))). { apply (NoDup_map_inv group). rewrite map_map, (map_ext_in _ (fun x => x)), map_id; [apply seq_NoDup|]. intros x Hx. apply in_seq in Hx. apply Hr. lia. }
    apply NoDup_incl_length with (l' := seq 0 n) in Q; [rewrite map_length, !seq_length in Q; exact Q|]. intros x Hx. apply in_map_iff in Hx. destruct Hx as (c & <- & Hc). apply in_seq in Hc. apply in_seq. split; [lia|]. apply Hr. lia. }
  assert (Ck : clamp n (Z.of_nat k) = k) by (unfold clamp; rewrite Nat2Z.id; lia). rewrite Ck in Ng.
  assert (Gr : forall i, (i < n)%nat -> (nth i g 0 < k)%nat) by (intros i Hi; apply Ng; apply nth_In; lia).
  assert (Gs : forall c, (c < k)%nat -> exists i, (i < n)%nat /\ nth i g 0%nat = c) by (intros c Hc; apply Ng in Hc; apply In_nth with (d := 0%nat) in Hc; destruct Hc as (i & Hi & Ei); exists i; split; [lia|exact Ei]).
  destruct Dec as [F|F]; intros i j Hi Hj.
  - split; [apply F; auto|]. apply (same_count n k (fun i => nth i g 0%nat) group); auto.
  - split; [|apply F; auto]. intros Ei. apply (same_count n k group (fun i => nth i g 0%nat)); auto.
Qed.
Print Assumptions C107_recovers.

(** Items at distance 0 (duplicates): for every number of clusters, all duplicates are in the same cluster or there is no cluster with items other than duplicates. *)
Theorem C107_duplicates : forall lk dist n D s oo m, follows_scipy lk -> distance_matrix dist n D -> method_of s = Some m -> averaging_method m ->
  (forall i j k, (i < n)%nat -> (j < n)%nat -> (k < n)%nat -> D i j = 0 -> D j k = 0 -> D i k = 0) ->
  forall k, exists g, fst (hc_get_clusters (scipy_with lk) (mkHC dist s oo None) k) = Ok (labels_of g) /\
    ((forall i j, (i < n)%nat -> (j < n)%nat -> same_group g i j -> D i j = 0) \/
     (forall i j, (i < n)%nat -> (j < n)%nat -> D i j = 0 -> same_group g i j)).
Proof.
  intros lk dist n D s oo m HL Hd Hs Ha Htr k. pose proof Hd as (Hn & _ & HD).
  set (group := fun i => match find (fun j => if Req_EM_T (D i j) 0 then true else false) (seq 0 n) with Some j => j | None => 0%nat end).
  assert (G0 : forall i, (i < n)%nat -> (group i < n)%nat /\ D i (group i) = 0).
  { intros i Hi. unfold group. destruct (find _ (seq 0 n)) as [j|] eqn:E.
    - apply find_some in E. destruct E as [E1 E2]. apply in_seq in E1. destruct (Req_EM_T (D i j) 0); [|discriminate]. split; [lia|assumption].
    - exfalso. apply find_none with (x := i) in E; [|apply in_seq; lia]. destruct (Req_EM_T (D i i) 0) as [_|C]; [discriminate|]. apply C. apply (HD i i Hi Hi). }
  assert (Geq : forall i j, (i < n)%nat -> (j < n)%nat -> group i = group j <-> D i j = 0).
  { intros i j Hi Hj. destruct (G0 i Hi) as [A1 A2], (G0 j Hj) as [B1 B2]. split.
    - intros E. apply (Htr i (group i) j); auto. rewrite (proj1 (proj2 (HD (group i) j A1 Hj))), E. exact B2.
    - intros E. unfold group. replace (find (fun l => if Req_EM_T (D j l) 0 then true else false) (seq 0 n)) with (find (fun l => if Req_EM_T (D i l) 0 then true else false) (seq 0 n)); [reflexivity|].
      assert (Q : forall l, In l (seq 0 n) -> (if Req_EM_T (D i l) 0 then true else false) = (if Req_EM_T (D j l) 0 then true else false)).
      { intros l Hl. apply in_seq in Hl. destruct (Req_EM_T (D i l) 0) as [C|C], (Req_EM_T (D j l) 0) as [C'|C']; auto; exfalso; [apply C'; apply (Htr j i l)|apply C; apply (Htr i j l)]; auto; try lia. rewrite (proj1 (proj2 (HD j i Hj Hi))). exact E. }
      clear - Q. induction (seq 0 n) as [|x l IH]; [reflexivity|]. cbn [find]. rewrite (Q x (or_introl eq_refl)). destruct (if Req_EM_T (D j x) 0 then true else false); [reflexivity|]. apply IH. intros y Hy. apply Q. now right. }
  assert (Pos : exists b, 0 < b /\ forall i j, (i < n)%nat -> (j < n)%nat -> D i j <> 0 -> b <= D i j).
  { assert (W : forall l : list (nat * nat), (forall p, In p l -> 0 <= D (fst p) (snd p)) -> exists b, 0 < b /\ forall p, In p l -> D (fst p) (snd p) <> 0 -> b <= D (fst p) (snd p)).
    { induction l as [|x l IH]; intros H; [exists 1; split; [lra|intros p []]|]. destruct IH as (b & B1 & B2); [intros p Hp; apply H; now right|]. destruct (Req_EM_T (D (fst x) (snd x)) 0) as [C|C].
      - exists b. split; [exact B1|]. intros p [<-|Hp] Np; [contradiction|auto].
      - exists (Rmin b (D (fst x) (snd x))). pose proof (H x (or_introl eq_refl)). split; [apply Rmin_glb_lt; lra|]. intros p [<-|Hp] Np; [apply Rmin_r|eapply Rle_trans; [apply Rmin_l|auto]]. }
    destruct (W (list_prod (seq 0 n) (seq 0 n))) as (b & B1 & B2).
    - intros [i j] Hp. apply in_prod_iff in Hp. destruct Hp as [H1 H2]. apply in_seq in H1. apply in_seq in H2. cbn [fst snd]. apply HD; lia.
    - exists b. split; [exact B1|]. intros i j Hi Hj. apply (B2 (i, j)). apply in_prod_iff. split; apply in_seq; lia. }
  destruct Pos as (b & Hb & HB). destruct (C107_nested_with_groups lk dist n D s oo m 0 b group HL Hd Hs Ha Hb) with (k := k) as (g & E & Dec).
  - intros i j Hi Hj Eg. apply Geq in Eg; auto. lra.
  - intros i j Hi Hj Ng. apply HB; auto. intros C. apply Ng. now apply Geq.
  - exists g. split; [exact E|]. destruct Dec as [F|F]; [left|right]; intros i j Hi Hj Q; [apply Geq; auto|apply F; auto; apply Geq; auto].
Qed.
Print Assumptions C107_duplicates.

(** Two pairs of items, 1 apart within a pair and 5 between the pairs. *)
Definition two_pairs (i j : nat) : R := if Nat.eqb i j then 0 else if Nat.eqb (Nat.div2 i) (Nat.div2 j) then 1 else 5.
Definition two_pairs_matrix : arr2 := mkArr 4 4 (fun i j => Fin (two_pairs i j)).
Lemma two_pairs_distances : distance_matrix (OArr2 two_pairs_matrix) 4 two_pairs.
Proof.
  split; [lia|]. split.
  - exists two_pairs_matrix. split; [now left|]. repeat split.
  - intros i j Hi Hj. unfold two_pairs. rewrite (Nat.eqb_sym j i), (Nat.eqb_sym (Nat.div2 j)), Nat.eqb_refl. repeat split; destruct (Nat.eqb i j), (Nat.eqb (Nat.div2 i) (Nat.div2 j)); lra.
Qed.
Example C107_two_pairs : forall s m, method_of s = Some m -> averaging_method m -> exists g,
  fst (hc_get_clusters (scipy_with greedy_linkage) (mkHC (OArr2 two_pairs_matrix) s false None) 2) = Ok (labels_of g) /\ same_group g 0 1 /\ same_group g 2 3 /\ ~ same_group g 0 2.
Proof.
  intros s m Hs Hm. destruct (C107_recovers greedy_linkage (OArr2 two_pairs_matrix) 4 two_pairs s false m 1 5 2 Nat.div2 C106_linkage_exists two_pairs_distances Hs Hm) as (g & E & G).
  - intros i Hi. do 4 (destruct i as [|i]; [cbn; lia|]). lia.
  - intros c Hc. destruct c as [|[|c]]; [exists 0%nat|exists 2%nat|lia]; split; auto; lia.
  - lra.
  - intros i j _ _ Ed. unfold two_pairs. rewrite Ed, Nat.eqb_refl. destruct (Nat.eqb i j); lra.
  - intros i j _ _ Ed. unfold two_pairs. destruct (Nat.eqb_spec i j) as [->|_]; [congruence|]. destruct (Nat.eqb_spec (Nat.div2 i) (Nat.div2 j)); [congruence|lra].
  - exists g. split; [exact E|]. split; [apply G; [lia|lia|reflexivity]|]. split; [apply G; [lia|lia|reflexivity]|]. intros C. apply G in C; [discriminate|lia|lia].
Qed.
