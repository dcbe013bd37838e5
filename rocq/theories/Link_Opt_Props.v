(** The number of clusters that get_optimal_nclusters returns, with scipy's linkage and cut_tree (C108). *)
From Coq Require Import Reals Lra String List Arith Lia Bool ZArith Permutation.
From Verif Require Import Base Num Sums Sim_Model Dist_Model Info_Model Feat_Model Clust_Model Clust_Spec Clust_Gap_Props Clust_Silh_Props Clust_Opt_Props Link_Model Link_Spec Link_Tree Link_Run Link_Cut_Props Link_Sep Link_Rows_Props.
Import ListNotations.
Open Scope R_scope.

(** the labels as real numbers *)
Definition real_labels (g : list nat) : list R := map INR g.
Lemma labels_fin : forall g, labels_of g = map Fin (real_labels g).
Proof. intros g. unfold labels_of, real_labels. rewrite map_map. reflexivity. Qed.
Lemma clusters_numbered : forall g k, (forall v, In v g <-> (v < k)%nat) -> clusters (real_labels g) = k.
Proof.
  intros g k H. unfold clusters. set (u := nodup Req_EM_T (real_labels g)). assert (P : Permutation u (map INR (seq 0 k))).
  { apply NoDup_Permutation; [apply NoDup_nodup| |].
    - apply FinFun.Injective_map_NoDup; [intros a b E; now apply INR_eq|apply seq_NoDup].
    - intros x. unfold u. rewrite nodup_In. unfold real_labels. rewrite !in_map_iff. split; intros (v & <- & Hv); exists v; (split; [reflexivity|]); [apply H in Hv; apply in_seq; lia|apply H; apply in_seq in Hv; lia]. }
  apply Permutation_length in P. rewrite map_length, seq_length in P. exact P.
Qed.
Lemma distinct_labels : forall n g, length g = n -> (forall v, In v g <-> (v < n)%nat) -> NoDup g.
Proof. intros n g L H. apply (@NoDup_incl_NoDup nat (seq 0 n)); [apply seq_NoDup|rewrite seq_length; lia|]. intros v Hv. apply in_seq in Hv. apply H. lia. Qed.
Lemma distinct_disp : forall n g D, length g = n -> (forall v, In v g <-> (v < n)%nat) -> (forall i, (i < n)%nat -> D i i = 0) -> disp (real_labels g) D = 0.
Proof.
  intros n g D L H D0. pose proof (distinct_labels n g L H) as Nd. unfold disp, within. rewrite (S_ext _ _ (fun _ => 0)); [rewrite S_zero; unfold Rdiv; ring|]. unfold real_labels. rewrite map_length, L. intros i Hi.
  rewrite (S_ext _ _ (fun _ => 0)); [apply S_zero|]. intros j Hj. destruct (Req_EM_T _ _) as [E|E]; [|reflexivity]. unfold label in E. change 0 with (INR 0) in E. rewrite !map_nth in E. apply INR_eq in E.
  apply NoDup_nth in E; [|exact Nd|lia|lia]. subst j. rewrite D0 by exact Hi. ring.
Qed.
Lemma matrix_holds : forall dist n D, distance_matrix dist n D -> holds_matrix dist n D.
Proof. intros dist n D (_ & (a & Ha & H1 & H2 & H3) & _). exists a. auto. Qed.

Section opt.
Variables (lk : obj -> string -> bool -> res (list row)) (dist : obj) (n : nat) (D : nat -> nat -> R) (s : string) (oo : bool) (m : method).
Hypothesis HL : follows_scipy lk.
Hypothesis Hd : distance_matrix dist n D.
Hypothesis Hs : method_of s = Some m.
Hypothesis Hm : monotone_method m.
Lemma optimal_is : forall groups, (forall k, fst (hc_get_clusters (scipy_with lk) (mkHC dist s oo None) k) = Ok (labels_of (groups k))) ->
  exists cut, (forall k, cut k = Ok (map Fin (real_labels (groups k)))) /\ (forall k, length (groups k) = n /\ forall v, In v (groups k) <-> (v < clamp n k)%nat) /\
    forall G st max_clust metric nb, fst (fst (hc_get_optimal (scipy_with lk) G st (mkHC dist s oo None) max_clust metric nb)) = fst (optimize_n_clusters G st cut dist max_clust metric nb).
Proof.
  intros groups Hg. destruct (link_result_D lk dist n D s oo m HL Hd Hs) as (zs & El & Hrun). destruct Hd as (Hn & _ & HD). exists (cuttree (scipy_with lk) zs). split; [|split].
  - intros k. specialize (Hg k). unfold hc_get_clusters, hc_get_linkage in Hg. cbn [hc_linkage hc_dist hc_linkage_method hc_optimal_ordering link scipy_with] in Hg. rewrite El in Hg. cbn [fst] in Hg. rewrite <- labels_fin. exact Hg.
  - intros k. destruct (cut_spec m n D zs Hm HD Hn Hrun k) as (g & Eg & Lg & [Ng _] & _). specialize (Hg k). unfold hc_get_clusters, hc_get_linkage in Hg. cbn [hc_linkage hc_dist hc_linkage_method hc_optimal_ordering link scipy_with] in Hg. rewrite El in Hg. cbn [fst cuttree scipy_with] in Hg. rewrite Eg in Hg. cbn [bind] in Hg. injection Hg as Hg.
    assert (E : groups k = g). { clear - Hg. unfold labels_of in Hg. revert Hg. generalize (groups k) as a. intros a. revert g. induction a as [|x a IH]; intros [|y g] E; try discriminate; [reflexivity|]. cbn in E. injection E as E1 E2. apply INR_eq in E1. rewrite (IH _ E2). congruence. }
    rewrite E. auto.
  - intros G st mc metric nb. unfold hc_get_optimal, hc_get_linkage. cbn [hc_linkage hc_dist hc_linkage_method hc_optimal_ordering link scipy_with]. rewrite El. cbn [hc_dist]. destruct (optimize_n_clusters G st _ dist mc metric nb) as [r st']. reflexivity.
Qed.
End opt.

Lemma mapM_raise : forall (A B : Type) (f : A -> res B) l1 x l2 e, (forall y, In y l1 -> exists b, f y = Ok b) -> f x = Raise e -> mapM f (l1 ++ x :: l2) = Raise e.
Proof. induction l1 as [|y l1 IH]; intros x l2 e H E; cbn [app mapM]; [rewrite E; reflexivity|]. destruct (H y (or_introl eq_refl)) as [b Hb]. rewrite Hb. cbn [bind]. rewrite (IH x l2 e); auto. intros z Hz. apply H. now right. Qed.

(** metric="silhouette": a number of clusters of at least 2 and at most max_clust with the largest t-statistic, and the smallest such (the first number of clusters whose
    t-statistic is no number, if there is one).  With max_clust as large as the number of items, ValueError. *)
Theorem C108_silhouette : forall lk dist n D s oo m groups, follows_scipy lk -> distance_matrix dist n D -> method_of s = Some m -> monotone_method m ->
  (forall k, fst (hc_get_clusters (scipy_with lk) (mkHC dist s oo None) k) = Ok (labels_of (groups k))) ->
  forall G st max_clust nb, let r := fst (fst (hc_get_optimal (scipy_with lk) G st (mkHC dist s oo None) max_clust "silhouette" nb)) in
  ((max_clust < 2 \/ Z.of_nat n <= max_clust)%Z -> r = Raise ValueError) /\
  ((2 <= max_clust < Z.of_nat n)%Z -> exists k (t : Z -> num), r = Ok k /\ (2 <= k <= max_clust)%Z /\
     (forall j, (2 <= j <= max_clust)%Z -> exists v, (forall i, (i < n)%nat -> is_silhouette (real_labels (groups j)) D i (v i)) /\ t j = tstat n v) /\
     ((t k = NaN /\ forall j, (2 <= j < k)%Z -> t j <> NaN) \/
      ((forall j, (2 <= j <= max_clust)%Z -> t j <> NaN /\ ~ below (t k) (t j)) /\ forall j, (2 <= j < k)%Z -> below (t j) (t k)))).
Proof.
  intros lk dist n D s oo m groups HL Hd Hs Hm Hg G st mc nb r. destruct (optimal_is lk dist n D s oo m HL Hd Hs Hm groups Hg) as (cut & Hcut & Hgr & Hopt). unfold r. rewrite Hopt. clear r.
  pose proof (matrix_holds _ _ _ Hd) as Hx. destruct Hd as (Hn & _ & HD).
  assert (Ck : forall k, clusters (real_labels (groups k)) = clamp n k) by (intros k; apply clusters_numbered; apply Hgr).
  assert (Lk : forall k, length (real_labels (groups k)) = n) by (intros k; unfold real_labels; rewrite map_length; apply Hgr).
  assert (Val : forall k, (2 <= k < Z.of_nat n)%Z -> exists v, (forall i, (i < n)%nat -> is_silhouette (real_labels (groups k)) D i (v i)) /\ silhouette_tstat dist (OArr1 (map Fin (real_labels (groups k)))) = Ok (tstat n v)).
  { intros k Hk. apply (C84_value dist _ n D (real_labels (groups k)) Hx); [now left|apply Lk|rewrite Ck; unfold clamp; lia|intros; apply HD; auto|intros i Hi; apply (HD i i Hi Hi)]. }
  split.
  - intros [Q|Q]; [rewrite (proj1 (proj2 (C70_errors G st cut dist mc nb) Q)); reflexivity|].
    unfold optimize_n_clusters. cbn [String.eqb Ascii.eqb eqb]. cbn [fst].
    assert (Er : nclust_range mc = map (fun i => (Z.of_nat i + 2)%Z) (seq 0 (n - 2)) ++ Z.of_nat n :: map (fun i => (Z.of_nat i + 2)%Z) (seq (n - 1) (Z.to_nat (mc - 1) - (n - 1)))).
    { unfold nclust_range. replace (Z.to_nat (mc - 1)) with ((n - 2) + S (Z.to_nat (mc - 1) - (n - 1)))%nat by lia. rewrite seq_app, map_app. f_equal. cbn [seq map]. rewrite Nat.add_0_l. replace (S (n - 2)) with (n - 1)%nat by lia.
      f_equal; [lia|]. f_equal. f_equal. lia. }
    rewrite Er, (mapM_raise _ _ _ _ _ _ ValueError); [reflexivity| |].
    + intros k Hk. apply in_map_iff in Hk. destruct Hk as (i & <- & Hi). apply in_seq in Hi. destruct (Val (Z.of_nat i + 2)%Z ltac:(lia)) as (v & _ & E). exists (tstat n v). rewrite Hcut. exact E.
    + rewrite Hcut. cbn [bind]. apply (C84_errors dist _ n D (real_labels (groups (Z.of_nat n))) Hx); [now left|apply Lk|exact Hn|intros i Hi; apply (HD i i Hi Hi)|right; rewrite Ck; unfold clamp; lia].
  - intros Q. set (t := fun k => match silhouette_tstat dist (OArr1 (map Fin (real_labels (groups k)))) with Ok v => v | Raise _ => NaN end).
    assert (Ht : forall j, (2 <= j <= mc)%Z -> exists v, (forall i, (i < n)%nat -> is_silhouette (real_labels (groups j)) D i (v i)) /\ t j = tstat n v) by (intros j Hj; destruct (Val j ltac:(lia)) as (v & Hv & E); exists v; unfold t; rewrite E; auto).
    assert (Hrun : forall j, (2 <= j <= mc)%Z -> exists labels, cut j = Ok labels /\ silhouette_tstat dist (OArr1 labels) = Ok (t j)).
    { intros j Hj. exists (map Fin (real_labels (groups j))). split; [apply Hcut|]. destruct (Val j ltac:(lia)) as (v & Hv & E). unfold t. rewrite E. reflexivity. }
    assert (First : (exists k, (2 <= k <= mc)%Z /\ t k = NaN /\ forall j, (2 <= j < k)%Z -> t j <> NaN) \/ forall j, (2 <= j <= mc)%Z -> t j <> NaN).
    { clear - Q. assert (W : forall p, (exists k, (2 <= k < 2 + Z.of_nat p)%Z /\ t k = NaN /\ forall j, (2 <= j < k)%Z -> t j <> NaN) \/ forall j, (2 <= j < 2 + Z.of_nat p)%Z -> t j <> NaN).
      { induction p as [|p [(k & H1 & H2)|IH]]; [right; lia|left; exists k; split; [lia|exact H2]|]. destruct (num_eq_dec (t (2 + Z.of_nat p)%Z) NaN) as [E|E].
        - left. exists (2 + Z.of_nat p)%Z. split; [lia|]. split; [exact E|]. intros j Hj. apply IH. lia.
        - right. intros j Hj. destruct (Z.eq_dec j (2 + Z.of_nat p)) as [->|Nj]; [exact E|apply IH; lia]. }
      destruct (W (Z.to_nat (mc - 1))) as [(k & H1 & H2)|H]; [left; exists k; split; [lia|exact H2]|right; intros j Hj; apply H; lia]. }
    destruct First as [(k & Hk & Ek & Fk)|F].
    + exists k, t. split; [rewrite (C70_silhouette_nan_wins G st cut dist mc nb t k Hrun Hk Ek Fk); reflexivity|]. split; [exact Hk|]. split; [exact Ht|]. left. auto.
    + destruct (C70_silhouette G st cut dist mc nb t ltac:(lia)) as (k & E & Hk & Best & Sm); [intros j Hj; split; auto|]. exists k, t. rewrite E. split; [reflexivity|]. split; [exact Hk|]. split; [exact Ht|]. right. split; [intros j Hj; split; auto|exact Sm].
Qed.
Print Assumptions C108_silhouette.

(** the default max_clust=20 raises for every matrix of at most 20 items *)
Corollary C108_silhouette_default : forall lk dist n D s oo m, follows_scipy lk -> distance_matrix dist n D -> method_of s = Some m -> monotone_method m -> (n <= 20)%nat ->
  forall G st nb, fst (fst (hc_get_optimal (scipy_with lk) G st (mkHC dist s oo None) 20 "silhouette" nb)) = Raise ValueError.
Proof.
  intros lk dist n D s oo m HL Hd Hs Hm Hn G st nb. destruct (C106_clusters lk dist n D s oo m HL Hd Hs Hm) as (groups & Hg & _).
  apply (C108_silhouette lk dist n D s oo m groups HL Hd Hs Hm (fun k => proj1 (Hg k)) G st 20%Z nb). right. lia.
Qed.

(** metric="gap": the smallest number of clusters, of at least 2 and at most max_clust - 1 and n - 2, whose gap exceeds the next gap minus its standard deviation; IndexError if there
    is none.  [gap] and [sd] are the values of C69 for the clusters that get_clusters returns. *)
Definition gap_of (G : generator) (nb : Z) (D : nat -> nat -> R) (M : R) (l : list R) : num :=
  if Rlt_dec 0 (disp l D) then Fin (avg (Z.to_nat nb) (log_ref G 0 l M) - ln (disp l D)) else PInf.
Theorem C108_gap : forall lk dist n D M s oo m groups, follows_scipy lk -> distance_matrix dist n D -> is_largest n D M -> method_of s = Some m -> monotone_method m ->
  (forall k, fst (hc_get_clusters (scipy_with lk) (mkHC dist s oo None) k) = Ok (labels_of (groups k))) ->
  forall G st max_clust nb, (1 <= nb <= 2 ^ 32)%Z ->
  let r := fst (fst (hc_get_optimal (scipy_with lk) G st (mkHC dist s oo None) max_clust "gap" nb)) in
  let gap k := gap_of G nb D M (real_labels (groups k)) in
  let sd k := spread (Z.to_nat nb) (log_ref G 0 (real_labels (groups k)) M) in
  let last := Z.min (max_clust - 1) (Z.of_nat n - 2) in
  (forall k, r = Ok k <-> smallest_in 2 last (gap_rule gap sd) k) /\
  (r = Raise IndexError <-> forall k, (2 <= k <= last)%Z -> ~ gap_rule gap sd k) /\
  ((exists k, r = Ok k) \/ r = Raise IndexError).
Proof.
  intros lk dist n D M s oo m groups HL Hd HM Hs Hm Hg G st mc nb Hnb r gap sd last. destruct (optimal_is lk dist n D s oo m HL Hd Hs Hm groups Hg) as (cut & Hcut & Hgr & Hopt). unfold r. rewrite Hopt. clear r.
  pose proof (matrix_holds _ _ _ Hd) as Hx. destruct Hd as (Hn & _ & HD).
  assert (Lk : forall k, length (real_labels (groups k)) = n) by (intros k; unfold real_labels; rewrite map_length; apply Hgr).
  assert (H : forall k, (2 <= k <= mc)%Z -> real_or_inf (gap k) /\ exists labels, cut k = Ok labels /\ forall s', fst (gap_statistic G s' dist (OArr1 labels) nb None) = Ok (gap k, Fin (sd k))).
  { intros k Hk. split; [unfold gap, gap_of; destruct (Rlt_dec _ _); exact I|]. exists (map Fin (real_labels (groups k))). split; [apply Hcut|]. intros s'.
    pose proof (C69_value G s' dist (OArr1 (map Fin (real_labels (groups k)))) n D (real_labels (groups k)) M nb None Hx ltac:(now left) (Lk k) Hn HM ltac:(lia)) as V. cbv zeta in V. rewrite V; [reflexivity| |]; cbn [seed_of]; unfold valid_seed; lia. }
  pose proof (C70_gap G st cut dist mc nb gap sd H) as Q. cbv zeta in Q. destruct Q as (Q1 & Q2 & Q3).
  assert (Inf : forall k, (Z.of_nat n <= k)%Z -> gap k = PInf).
  { intros k Hk. unfold gap, gap_of. destruct (Hgr k) as [Lg Ng]. replace (clamp n k) with n in Ng by (unfold clamp; lia). rewrite (distinct_disp n (groups k) D Lg Ng) by (intros i Hi; apply (HD i i Hi Hi)). destruct (Rlt_dec 0 0); [lra|reflexivity]. }
  assert (No : forall k, (Z.of_nat n - 2 < k)%Z -> ~ gap_rule gap sd k) by (intros k Hk R; unfold gap_rule in R; rewrite (Inf (k + 1)%Z) in R by lia; destruct (gap k); exact R).
  assert (Last : forall k, gap_rule gap sd k -> (2 <= k <= mc - 1)%Z <-> (2 <= k <= last)%Z).
  { intros k R. unfold last. destruct (Z_lt_le_dec (Z.of_nat n - 2) k) as [C|C]; [destruct (No k C R)|lia]. }
  split; [|split; [|exact Q3]].
  - intros k. rewrite Q1. unfold smallest_in. split; intros (A & B & C); (split; [apply (Last k B); exact A|auto]).
  - rewrite Q2. split; intros A k Hk R; apply (A k); auto; apply (Last k R); exact Hk.
Qed.
Print Assumptions C108_gap.

(** up to three items there is no answer *)
Corollary C108_gap_three : forall lk dist n D s oo m, follows_scipy lk -> distance_matrix dist n D -> method_of s = Some m -> monotone_method m -> (n <= 3)%nat ->
  forall G st max_clust nb, (1 <= nb <= 2 ^ 32)%Z -> fst (fst (hc_get_optimal (scipy_with lk) G st (mkHC dist s oo None) max_clust "gap" nb)) = Raise IndexError.
Proof.
  intros lk dist n D s oo m HL Hd Hs Hm Hn G st mc nb Hnb. destruct (C106_clusters lk dist n D s oo m HL Hd Hs Hm) as (groups & Hg & _).
  assert (HM : exists M, is_largest n D M).
  { destruct Hd as (H2 & _). clear - H2. assert (W : forall l : list (nat * nat), l <> [] -> exists p, In p l /\ forall q, In q l -> D (fst q) (snd q) <= D (fst p) (snd p)).
    { induction l as [|x l IH]; intros N; [congruence|]. destruct l as [|y l]; [exists x; split; [now left|intros q [<-|[]]; lra]|]. destruct IH as (p & Hp & Bp); [discriminate|].
      destruct (Rle_dec (D (fst x) (snd x)) (D (fst p) (snd p))) as [Q|Q]; [exists p; split; [now right|intros q [<-|Hq]; auto]|]. exists x. split; [now left|]. intros q [<-|Hq]; [lra|]. specialize (Bp q Hq). lra. }
    destruct (W (list_prod (seq 0 n) (seq 0 n))) as ([i j] & Hp & Bp); [destruct n; [lia|discriminate]|]. apply in_prod_iff in Hp. destruct Hp as [H3 H4]. apply in_seq in H3. apply in_seq in H4. exists (D i j). split; [exists i, j; repeat split; lia|]. intros a b Ha Hb. apply (Bp (a, b)). apply in_prod_iff. split; apply in_seq; lia. }
  destruct HM as [M HM]. pose proof (C108_gap lk dist n D M s oo m groups HL Hd HM Hs Hm (fun k => proj1 (Hg k)) G st mc nb Hnb) as Q. cbv zeta in Q. destruct Q as (_ & Q & _). apply Q. intros k Hk. lia.
Qed.
Print Assumptions C108_gap_three.

(** three items at the same distance d from each other *)
Example C108_three_items : forall G st d, 0 < d -> let h := mkHC (OArr2 (equidistant d)) "average" true None in
  fst (fst (hc_get_optimal (scipy_with greedy_linkage) G st h 20 "silhouette" 10)) = Raise ValueError /\
  fst (fst (hc_get_optimal (scipy_with greedy_linkage) G st h 2 "silhouette" 10)) = Ok 2%Z /\
  fst (fst (hc_get_optimal (scipy_with greedy_linkage) G st h 20 "gap" 10)) = Raise IndexError.
Proof.
  intros G st d Hd h. pose proof (equidistant_matrix d Hd) as Hm. split; [|split].
  - exact (C108_silhouette_default greedy_linkage _ 3 _ "average" true Average C106_linkage_exists Hm eq_refl I ltac:(lia) G st 10%Z).
  - destruct (C106_clusters greedy_linkage _ 3 _ "average" true Average C106_linkage_exists Hm eq_refl I) as (groups & Hg & _).
    destruct (proj2 (C108_silhouette greedy_linkage _ 3 _ "average" true Average groups C106_linkage_exists Hm eq_refl I (fun k => proj1 (Hg k)) G st 2%Z 10%Z) ltac:(lia)) as (k & t & E & Hk & _).
    unfold h. rewrite E. f_equal. lia.
  - exact (C108_gap_three greedy_linkage _ 3 _ "average" true Average C106_linkage_exists Hm eq_refl I ltac:(lia) G st 20%Z 10%Z ltac:(lia)).
Qed.
