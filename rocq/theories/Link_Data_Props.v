(** From a table of observations to clusters: HC(X), then get_clusters (C109). *)
From Coq Require Import Reals Lra Psatz String List Arith Lia Bool ZArith FunctionalExtensionality.
From Verif Require Import Base Num Sums Sim_Model Dist_Model Dist_Spec Dist_Proofs Dist_Props Dist_More_Props Info_Model Info_Props Info_More_Props Feat_Model Clust_Model Clust_Spec Clust_HC_Props Link_Model Link_Spec Link_Cut_Props Link_Rows_Props Link_Recover_Props.
Import ListNotations.
Open Scope R_scope.

(** the two correlations, over the rows in which both columns are present *)
Definition correlation (cm : string) (x y : list num) : R :=
  let u := map fst (both x y) in let v := map snd (both x y) in
  if String.eqb cm "pearson-correlation" then pearson u v else pearson (ranks u) (ranks v).
(** columns i and j have a correlation: over the rows in which both are present, both vary *)
Definition related (a : arr2) (i j : nat) : Prop := varies (map fst (both (col a i) (col a j))) /\ varies (map snd (both (col a i) (col a j))).
Definition correlation_method (cm : string) : Prop := cm = "pearson-correlation"%string \/ cm = "spearman-correlation"%string.

Lemma init_corr : forall L X cm dm s oo, correlation_method cm ->
  hc_init L spearman_matrix (Some X) None None cm dm s oo = (d <- get_corr_distance_matrix spearman_matrix X (if String.eqb cm "pearson-correlation" then "pearson" else "spearman") dm None ;; Ok (mkHC d s oo None)).
Proof. intros L X cm dm s oo [->| ->]; reflexivity. Qed.
Lemma corr_matrix : forall cm dm a names, correlation_method cm -> known_method dm -> (2 <= ncol a)%nat ->
  let meth := if String.eqb cm "pearson-correlation" then "pearson"%string else "spearman"%string in
  (exists d, get_corr_distance_matrix spearman_matrix (OFrame names a) meth dm None = Ok (OFrame names d) /\ nrow d = ncol a /\ ncol d = ncol a
     /\ forall i j, (related a i j -> at2 d i j = Fin (formula dm (correlation cm (col a i) (col a j)))) /\ (~ related a i j -> at2 d i j = NaN))
  /\ ((forall i j, (i < ncol a)%nat -> (j < ncol a)%nat -> related a i j) ->
       exists d, get_corr_distance_matrix spearman_matrix (OArr2 a) meth dm None = Ok (OArr2 d) /\ nrow d = ncol a /\ ncol d = ncol a
         /\ forall i j, (i < ncol a)%nat -> (j < ncol a)%nat -> at2 d i j = Fin (formula dm (correlation cm (col a i) (col a j))))
  /\ ((exists i j, (i < ncol a)%nat /\ (j < ncol a)%nat /\ ~ related a i j) -> get_corr_distance_matrix spearman_matrix (OArr2 a) meth dm None = Raise AssertionError).
Proof.
  intros cm dm a names Hc Hd H2. destruct Hc as [->| ->]; cbv zeta; unfold correlation, related; cbn [String.eqb Ascii.eqb Bool.eqb].
  - exact (C93_missing_observations spearman_matrix a names dm Hd H2).
  - exact (C94_rank_correlation a names dm Hd H2).
Qed.
Lemma formula_nonneg : forall dm r, 0 <= formula dm r.
Proof. intros dm r. unfold formula, angular, abs_angular, squared_angular. destruct (String.eqb dm "angular"), (String.eqb dm "abs_angular"); apply sqrt_pos. Qed.
Lemma correlation_sym : forall cm x y, correlation cm x y = correlation cm y x.
Proof.
  intros cm x y. unfold correlation. rewrite (both_swap x y), !map_map. cbn [fst snd]. change (map (fun p : R * R => snd p) (both x y)) with (map snd (both x y)). change (map (fun p : R * R => fst p) (both x y)) with (map fst (both x y)).
  destruct (String.eqb cm "pearson-correlation"); apply pearson_sym; rewrite ?len_ranks, !map_length; reflexivity.
Qed.
Lemma correlation_self : forall cm x, varies (map fst (both x x)) -> correlation cm x x = 1.
Proof.
  intros cm x H. unfold correlation. assert (E : map snd (both x x) = map fst (both x x)) by (rewrite both_same at 1; rewrite map_map; cbn [snd]; apply map_id). rewrite E.
  destruct (String.eqb cm "pearson-correlation"); apply pearson_self; [exact H|now apply varies_ranks].
Qed.

(** If every two columns have a correlation, the object can be made, its dist attribute is the matrix of the distances of the columns, and it has clusters for every number. *)
Theorem C109_clusters : forall lk X a cm dm s oo m, follows_scipy lk -> table X a -> correlation_method cm -> known_method dm -> method_of s = Some m -> monotone_method m ->
  (forall i j, (i < ncol a)%nat -> (j < ncol a)%nat -> related a i j) ->
  exists d D, hc_init (list row) spearman_matrix (Some X) None None cm dm s oo = Ok (mkHC d s oo None) /\ distance_matrix d (ncol a) D /\
    (forall i j, (i < ncol a)%nat -> (j < ncol a)%nat -> D i j = formula dm (correlation cm (col a i) (col a j))) /\
    forall k, exists g, fst (hc_get_clusters (scipy_with lk) (mkHC d s oo None) k) = Ok (labels_of g) /\ length g = ncol a /\ numbered_groups g (Link_Spec.clamp (ncol a) k).
Proof.
  intros lk X a cm dm s oo m HL [HX H2] Hc Hd Hs Hm HR. set (D := fun i j => formula dm (correlation cm (col a i) (col a j))).
  assert (Q : exists d, hc_init (list row) spearman_matrix (Some X) None None cm dm s oo = Ok (mkHC d s oo None) /\ distance_matrix d (ncol a) D).
  { assert (F : forall i j, (i < ncol a)%nat -> (j < ncol a)%nat -> 0 <= D i j /\ D i j = D j i /\ D i i = 0).
    { intros i j Hi Hj. unfold D. split; [apply formula_nonneg|]. split; [f_equal; apply correlation_sym|]. rewrite correlation_self by (apply (HR i i Hi Hi)). apply formula_one. exact Hd. }
    rewrite init_corr by exact Hc. destruct HX as [->|(names & ->)].
    - destruct (corr_matrix cm dm a [] Hc Hd H2) as (_ & K & _). destruct (K HR) as (d & E & N1 & N2 & V). exists (OArr2 d). rewrite E. split; [reflexivity|]. split; [exact H2|]. split; [|exact F].
      exists d. split; [now left|]. split; [exact N1|]. split; [exact N2|]. exact V.
    - destruct (corr_matrix cm dm a names Hc Hd H2) as ((d & E & N1 & N2 & V) & _). exists (OFrame names d). rewrite E. split; [reflexivity|]. split; [exact H2|]. split; [|exact F].
      exists d. split; [right; exists names; reflexivity|]. split; [exact N1|]. split; [exact N2|]. intros i j Hi Hj. apply V. now apply HR. }
  destruct Q as (d & E & HD). exists d, D. split; [exact E|]. split; [exact HD|]. split; [reflexivity|]. intros k.
  destruct (C106_clusters lk d (ncol a) D s oo m HL HD Hs Hm) as (groups & Hg & _). exists (groups k). apply Hg.
Qed.
Print Assumptions C109_clusters.

(** If two columns have none (one of them is constant, or they are never observed together), an array is refused when the object is made; with a DataFrame the object is made, but
    its linkage, clusters and number of clusters are ValueErrors. *)
Theorem C109_unrelated : forall lk a names cm dm s oo i j, follows_scipy lk -> (2 <= ncol a)%nat -> correlation_method cm -> known_method dm ->
  (i < ncol a)%nat -> (j < ncol a)%nat -> ~ related a i j ->
  hc_init (list row) spearman_matrix (Some (OArr2 a)) None None cm dm s oo = Raise AssertionError /\
  exists h, hc_init (list row) spearman_matrix (Some (OFrame names a)) None None cm dm s oo = Ok h /\
    fst (hc_get_linkage (scipy_with lk) h) = Raise ValueError /\ (forall k, fst (hc_get_clusters (scipy_with lk) h k) = Raise ValueError) /\
    forall G st max_clust metric nb, fst (fst (hc_get_optimal (scipy_with lk) G st h max_clust metric nb)) = Raise ValueError.
Proof.
  intros lk a names cm dm s oo i j HL H2 Hc Hd Hi Hj HN. rewrite !init_corr by exact Hc. destruct (corr_matrix cm dm a names Hc Hd H2) as ((d & E & N1 & N2 & V) & _ & K).
  rewrite K by eauto. split; [reflexivity|]. rewrite E. cbn [bind]. exists (mkHC (OFrame names d) s oo None). split; [reflexivity|].
  assert (Er : lk (OFrame names d) s oo = Raise ValueError).
  { pose proof (HL (OFrame names d) s oo) as Q. assert (Ei : link_input (OFrame names d) = Raise ValueError).
    { unfold link_input. cbn [values2]. destruct (negb (Nat.eqb (nrow d) (ncol d))); [reflexivity|]. destruct (forallb _ (seq 0 (nrow d))) eqn:Eq; cbn [negb]; [|reflexivity]. exfalso.
      rewrite forallb_forall in Eq. specialize (Eq i ltac:(apply in_seq; lia)). rewrite forallb_forall in Eq. specialize (Eq j ltac:(apply in_seq; lia)). rewrite (proj2 (V i j) HN) in Eq. discriminate. }
    rewrite Ei in Q. destruct (method_of s); exact Q. }
  split; [|split; [intros k; unfold hc_get_clusters|intros; unfold hc_get_optimal]];
    unfold hc_get_linkage; cbn [hc_linkage hc_dist hc_linkage_method hc_optimal_ordering link scipy_with]; rewrite Er; reflexivity.
Qed.
Print Assumptions C109_unrelated.

(** The units of the columns do not matter: with other units (positive factors) and origins the object is the same.  With the absolute and squared distances the signs do not matter either: the distances
    are the same. *)
Lemma pearson_signs : forall ku cu kv cv u v, ku <> 0 -> kv <> 0 -> length u = length v -> varies u -> varies v ->
  exists sg, (sg = 1 \/ sg = -1) /\ (0 < ku -> 0 < kv -> sg = 1) /\ pearson (map (fun x => ku * x + cu) u) (map (fun x => kv * x + cv) v) = sg * pearson u v.
Proof.
  intros ku cu kv cv u v Hu Hv L Vu Vv. fold (affine ku cu u). fold (affine kv cv v).
  assert (Lv : length (affine kv cv v) = length v) by (unfold affine; apply map_length). assert (Vv' : varies (affine kv cv v)) by (apply varies_affine; auto).
  rewrite pearson_affine, pearson_sym, pearson_affine, (pearson_sym v u) by (auto; congruence).
  exists ((if Rlt_dec 0 ku then 1 else -1) * (if Rlt_dec 0 kv then 1 else -1)). split; [destruct (Rlt_dec 0 ku), (Rlt_dec 0 kv); lra|]. split; [intros; destruct (Rlt_dec 0 ku), (Rlt_dec 0 kv); lra|ring].
Qed.
Lemma affine_col : forall k c a j, col (columnwise (fun j x => k j * x + c j) a) j = map (lift_num (fun x => k j * x + c j)) (col a j).
Proof. intros. unfold col, columnwise. cbn [nrow at2]. rewrite map_map. reflexivity. Qed.
Lemma affine_related : forall k c a i j, (forall j, k j <> 0) -> related (columnwise (fun j x => k j * x + c j) a) i j <-> related a i j.
Proof.
  intros k c a i j Hk. unfold related. rewrite !affine_col, both_lift, !map_map. cbn [fst snd]. rewrite <- (map_map fst (fun x => k i * x + c i)), <- (map_map snd (fun x => k j * x + c j)).
  assert (V : forall q d u, q <> 0 -> varies (map (fun x => q * x + d) u) <-> varies u).
  { intros q d u Hq. split; [|intros H; apply (varies_affine q d u Hq H)]. intros (x & y & Hx & Hy & N). apply in_map_iff in Hx. apply in_map_iff in Hy. destruct Hx as (x' & <- & Hx), Hy as (y' & <- & Hy). exists x', y'. split; [exact Hx|]. split; [exact Hy|]. congruence. }
  rewrite !V by auto. reflexivity.
Qed.
Theorem C109_units : forall L X a k c dm s oo, table X a -> (forall j, 0 < k j) ->
  hc_init L spearman_matrix (Some (refill X (columnwise (fun j x => k j * x + c j) a))) None None "pearson-correlation" dm s oo =
  hc_init L spearman_matrix (Some X) None None "pearson-correlation" dm s oo.
Proof.
  intros L X a k c dm s oo HX Hk. rewrite !init_corr by now left. f_equal.
  assert (Sm : pearson_matrix (columnwise (fun j x => k j * x + c j) a) = pearson_matrix a).
  { unfold pearson_matrix. cbn [ncol columnwise]. f_equal. extensionality i. extensionality j.
    change (mkArr (nrow a) (ncol a) (fun i0 j0 => lift_num (fun x => k j0 * x + c j0) (at2 a i0 j0))) with (columnwise (fun j x => k j * x + c j) a).
    assert (Hk0 : forall j, k j <> 0) by (intros l; specialize (Hk l); lra). pose proof (affine_related k c a i j Hk0) as Rl. unfold related in Rl.
    destruct (pearson_pairs (col (columnwise (fun j x => k j * x + c j) a) i) (col (columnwise (fun j x => k j * x + c j) a) j)) as [P1 P2]. destruct (pearson_pairs (col a i) (col a j)) as [P3 P4]. cbv zeta in *.
    destruct (varies_dec (map fst (both (col a i) (col a j)))) as [A|A]; [destruct (varies_dec (map snd (both (col a i) (col a j)))) as [B|B]|].
    - rewrite (P3 (conj A B)), (P1 (proj2 Rl (conj A B))). f_equal. rewrite !affine_col, both_lift, !map_map. cbn [fst snd]. rewrite <- (map_map fst (fun x => k i * x + c i)), <- (map_map snd (fun x => k j * x + c j)).
      destruct (pearson_signs (k i) (c i) (k j) (c j) (map fst (both (col a i) (col a j))) (map snd (both (col a i) (col a j)))) as (sg & _ & S1 & ->); auto; [rewrite !map_length; reflexivity|]. rewrite S1 by auto. ring.
    - rewrite P4 by auto. apply P2. destruct (varies_dec (map fst (both (col (columnwise (fun j x => k j * x + c j) a) i) (col (columnwise (fun j x => k j * x + c j) a) j)))) as [Q|Q]; [|now left]. right. intros Q'. apply B. apply (proj1 Rl). auto.
    - rewrite P4 by auto. apply P2. destruct (varies_dec (map snd (both (col (columnwise (fun j x => k j * x + c j) a) i) (col (columnwise (fun j x => k j * x + c j) a) j)))) as [Q|Q]; [|now right]. left. intros Q'. apply A. apply (proj1 Rl). auto. }
  destruct HX as [[->|(names & ->)] H2]; cbn [refill]; unfold get_corr_distance_matrix, calculate_correlation, check_2d; cbn [existsb String.eqb Ascii.eqb Bool.eqb orb negb]; rewrite Sm; reflexivity.
Qed.
Print Assumptions C109_units.
Theorem C109_signs : forall a k c dm i j, dm = "abs_angular"%string \/ dm = "squared_angular"%string -> (forall j, k j <> 0) -> related a i j ->
  let a' := columnwise (fun j x => k j * x + c j) a in
  related a' i j /\ formula dm (correlation "pearson-correlation" (col a' i) (col a' j)) = formula dm (correlation "pearson-correlation" (col a i) (col a j)).
Proof.
  intros a k c dm i j Hd Hk HR a'. split; [now apply affine_related|]. unfold correlation. cbn [String.eqb Ascii.eqb Bool.eqb]. unfold a'. rewrite !affine_col, both_lift, !map_map. cbn [fst snd]. rewrite <- (map_map fst (fun x => k i * x + c i)), <- (map_map snd (fun x => k j * x + c j)).
  destruct HR as [A B]. destruct (pearson_signs (k i) (c i) (k j) (c j) (map fst (both (col a i) (col a j))) (map snd (both (col a i) (col a j)))) as (sg & S0 & _ & ->); auto; [rewrite !map_length; reflexivity|].
  destruct Hd as [->| ->]; unfold formula, abs_angular, squared_angular; cbn [String.eqb Ascii.eqb Bool.eqb]; f_equal.
  - rewrite Rabs_mult. destruct S0 as [->| ->]; [rewrite Rabs_R1|rewrite Rabs_left by lra]; ring.
  - destruct S0 as [->| ->]; ring.
Qed.
Print Assumptions C109_signs.
(** With rank correlations only the order of the observations matters. *)
Theorem C109_order : forall L X a f dm s oo, table X a -> (forall j x y, x < y -> f j x < f j y) ->
  hc_init L spearman_matrix (Some (refill X (columnwise f a))) None None "spearman-correlation" dm s oo = hc_init L spearman_matrix (Some X) None None "spearman-correlation" dm s oo.
Proof. intros L X a f dm s oo HX Hf. rewrite !init_corr by now right. cbn [String.eqb Ascii.eqb Bool.eqb]. rewrite (C94_order_only f X a dm None HX Hf). reflexivity. Qed.
Print Assumptions C109_order.

(** codependence_method="var_info": varying columns, none of them perfectly anti-correlated with another one, give an object with clusters; with a perfectly anti-correlated pair the constructor
    raises OverflowError. *)
Theorem C109_var_info : forall lk X a x dm s oo m, follows_scipy lk -> table X a -> real_data a x -> (2 <= nrow a)%nat -> method_of s = Some m -> monotone_method m -> (forall j, (j < ncol a)%nat -> varies (x j)) ->
  ((forall i j, (i < j < ncol a)%nat -> pearson (x i) (x j) <> -1) ->
   exists d D, hc_init (list row) spearman_matrix (Some X) None None "var_info" dm s oo = Ok (mkHC d s oo None) /\ distance_matrix d (ncol a) D /\
     (forall i j, (i < j < ncol a)%nat -> 0 <= D i j <= 1 /\ var_info (OArr1 (col a i)) (OArr1 (col a j)) None true = Ok (Fin (D i j))) /\
     forall k, exists g, fst (hc_get_clusters (scipy_with lk) (mkHC d s oo None) k) = Ok (labels_of g) /\ length g = ncol a /\ numbered_groups g (Link_Spec.clamp (ncol a) k)) /\
  ((exists i j, (i < j < ncol a)%nat /\ pearson (x i) (x j) = -1) -> hc_init (list row) spearman_matrix (Some X) None None "var_info" dm s oo = Raise OverflowError).
Proof.
  intros lk X a x dm s oo m HL [HX H2] HR Hn Hs Hm HV.
  assert (Sam : forall i j, (i < ncol a)%nat -> (j < ncol a)%nat -> sample (OArr1 (col a i)) (OArr1 (col a j)) (x i) (x j)).
  { intros i j Hi Hj. destruct HR as [_ HR]. destruct (HR i Hi) as [L1 E1], (HR j Hj) as [L2 E2]. split; [left; rewrite E1; reflexivity|]. split; [left; rewrite E2; reflexivity|]. split; lia. }
  assert (Ei : hc_init (list row) spearman_matrix (Some X) None None "var_info" dm s oo = (d <- get_info_distance_matrix X "var_info" None true ;; Ok (mkHC d s oo None))) by reflexivity. rewrite Ei. split.
  - intros HP. set (w := fun i j => match var_info (OArr1 (col a i)) (OArr1 (col a j)) None true with Ok (Fin v) => v | _ => 0 end).
    assert (Hw : forall i j, (i < j < ncol a)%nat -> var_info (OArr1 (col a i)) (OArr1 (col a j)) None true = Ok (Fin (w i j)) /\ 0 <= w i j <= 1).
    { intros i j Hij. destruct (C44_defaults_finite _ _ _ _ (Sam i j ltac:(lia) ltac:(lia)) (HV i ltac:(lia)) (HV j ltac:(lia)) (HP i j Hij)) as (mi & d & _ & E & _ & Hd). unfold w. rewrite E. auto. }
    assert (HM : exists d, get_info_distance_matrix X "var_info" None true = Ok d /\ distance_matrix d (ncol a) (fun i j => if Nat.eqb i j then 0 else w (Nat.min i j) (Nat.max i j))).
    { assert (B : forall i j, (i < ncol a)%nat -> (j < ncol a)%nat -> let D := fun i j => if Nat.eqb i j then 0 else w (Nat.min i j) (Nat.max i j) in 0 <= D i j /\ D i j = D j i /\ D i i = 0).
      { intros i j Hi Hj. cbv beta zeta. rewrite Nat.eqb_refl, (Nat.eqb_sym j i), (Nat.min_comm j i), (Nat.max_comm j i). split; [|auto]. destruct (Nat.eqb_spec i j); [lra|]. apply Hw. lia. }
      assert (Cm : forall names, exists d, get_info_distance_matrix (OArr2 a) "var_info" None true = Ok (OArr2 d) /\ get_info_distance_matrix (OFrame names a) "var_info" None true = Ok (OFrame names d) /\ nrow d = ncol a /\ ncol d = ncol a /\
        forall i j, (i < ncol a)%nat -> (j < ncol a)%nat -> at2 d i j = Fin (if Nat.eqb i j then 0 else w (Nat.min i j) (Nat.max i j))).
      { intros names. destruct (C45_matrix a names "var_info" None true (fun i j => Fin (w i j))) as (d & E1 & E2 & N1 & N2 & V); [now right|exact H2| |].
        - intros i j Hij. unfold pair_value. cbn [String.eqb Ascii.eqb Bool.eqb]. apply Hw. exact Hij.
        - exists d. split; [exact E1|]. split; [exact E2|]. split; [exact N1|]. split; [exact N2|]. intros i j Hi Hj. rewrite (V i j Hi Hj). cbn [String.eqb Ascii.eqb Bool.eqb]. destruct (Nat.eqb i j); reflexivity. }
      destruct HX as [->|(names & ->)].
      - destruct (Cm []) as (d & E1 & _ & N1 & N2 & V). exists (OArr2 d). split; [exact E1|]. split; [exact H2|]. split; [|exact B]. exists d. split; [now left|]. auto.
      - destruct (Cm names) as (d & _ & E2 & N1 & N2 & V). exists (OFrame names d). split; [exact E2|]. split; [exact H2|]. split; [|exact B]. exists d. split; [right; exists names; reflexivity|]. auto. }
    destruct HM as (d & E & HD). exists d, (fun i j => if Nat.eqb i j then 0 else w (Nat.min i j) (Nat.max i j)). rewrite E. split; [reflexivity|]. split; [exact HD|]. split.
    + intros i j Hij. destruct (Nat.eqb_spec i j); [lia|]. rewrite Nat.min_l, Nat.max_r by lia. destruct (Hw i j Hij). auto.
    + intros k. destruct (C106_clusters lk d (ncol a) _ s oo m HL HD Hs Hm) as (groups & Hg & _). exists (groups k). apply Hg.
  - intros (i & j & Hij & HP). destruct (C45_rejects X "var_info" None true) as (_ & _ & K).
    assert (HX' : exists names, X = OArr2 a \/ X = OFrame names a) by (destruct HX as [->|(names & ->)]; [exists []; now left|exists names; now right]). destruct HX' as (names & HX').
    destruct (K a names (or_intror eq_refl) HX') as [_ K2]. destruct K2 as (i' & j' & e & Hij' & Ee & Eg).
    + exact H2.
    + exists i, j, OverflowError. split; [exact Hij|]. unfold pair_value. cbn [String.eqb Ascii.eqb Bool.eqb]. apply (C44_default_bins _ _ _ _ (Sam i j ltac:(lia) ltac:(lia))); auto; apply HV; lia.
    + rewrite Eg. cbn [bind]. f_equal. unfold pair_value in Ee. cbn [String.eqb Ascii.eqb Bool.eqb] in Ee.
      destruct (C44_default_bins _ _ _ _ (Sam i' j' ltac:(lia) ltac:(lia))) as (B1 & B2 & _). destruct (Req_EM_T (pearson (x i') (x j')) (-1)) as [C|C].
      * destruct (B2 (HV i' ltac:(lia)) (HV j' ltac:(lia)) C true) as (_ & Q & _). rewrite Q in Ee. congruence.
      * destruct (C44_defaults_finite _ _ _ _ (Sam i' j' ltac:(lia) ltac:(lia)) (HV i' ltac:(lia)) (HV j' ltac:(lia)) C) as (mi & dd & _ & Q & _). rewrite Q in Ee. discriminate.
Qed.
Print Assumptions C109_var_info.

(** Columns that come in groups, any two of a group more strongly correlated than any two of different groups: get_clusters(number of groups) returns the groups. *)
Definition strength (dm : string) (r : R) : R := if String.eqb dm "angular" then r else Rabs r.
Lemma correlation_bounds : forall cm x y, varies (map fst (both x y)) -> varies (map snd (both x y)) -> -1 <= correlation cm x y <= 1.
Proof.
  intros cm x y A B. unfold correlation. destruct (String.eqb cm "pearson-correlation"); apply pearson_bounds; rewrite ?len_ranks, ?map_length; auto; now apply varies_ranks.
Qed.
Lemma formula_decreasing : forall dm r q, known_method dm -> -1 <= r <= 1 -> -1 <= q <= 1 -> (strength dm r <= strength dm q -> formula dm q <= formula dm r) /\ (strength dm r < strength dm q -> formula dm q < formula dm r).
Proof.
  intros dm r q Hd Hr Hq. unfold strength, formula, angular, abs_angular, squared_angular.
  assert (Sq : forall z, z * z = Rabs z * Rabs z) by (intros z; rewrite <- Rabs_mult, Rabs_right; [reflexivity|nra]).
  assert (Ar : 0 <= Rabs r <= 1) by (split; [apply Rabs_pos|apply Rabs_le; lra]). assert (Aq : 0 <= Rabs q <= 1) by (split; [apply Rabs_pos|apply Rabs_le; lra]).
  destruct Hd as [->|[->| ->]]; cbn [String.eqb Ascii.eqb Bool.eqb]; (split; intros H; [apply sqrt_le_1_alt|apply sqrt_lt_1_alt]); try nra.
  all: try (pose proof (Sq r); pose proof (Sq q); nra).
Qed.
Lemma list_max : forall x l, exists u, In u (x :: l) /\ forall y, In y (x :: l) -> y <= u.
Proof.
  intros x l. revert x. induction l as [|z l IH]; intros x; [exists x; split; [now left|]; intros y [->|[]]; lra|]. destruct (IH z) as (u & Hu & Mu). destruct (Rle_dec x u) as [L|L].
  - exists u. split; [now right|]. intros y [<-|Hy]; auto.
  - exists x. split; [now left|]. intros y [<-|Hy]; [lra|]. specialize (Mu y Hy). lra.
Qed.
Lemma separating : forall x l1 l2, (forall u v, In u (x :: l1) -> In v l2 -> u < v) -> exists p q, p < q /\ (forall u, In u (x :: l1) -> u <= p) /\ forall v, In v l2 -> q <= v.
Proof.
  intros x l1 l2 H. destruct (list_max x l1) as (p & Hp & Mp). destruct l2 as [|y l2]; [exists p, (p + 1); split; [lra|]; split; [exact Mp|intros v []]|].
  destruct (list_max (- y) (map Ropp l2)) as (q & Hq & Mq). exists p, (- q). split; [|split; [exact Mp|]].
  - change (- y :: map Ropp l2) with (map Ropp (y :: l2)) in Hq. apply in_map_iff in Hq. destruct Hq as (z & <- & Hz). specialize (H p z Hp Hz). lra.
  - intros v Hv. specialize (Mq (- v)). change (- y :: map Ropp l2) with (map Ropp (y :: l2)) in Mq. specialize (Mq (in_map Ropp _ _ Hv)). lra.
Qed.
Theorem C109_groups : forall lk X a cm dm s oo m k (group : nat -> nat), follows_scipy lk -> table X a -> correlation_method cm -> known_method dm -> method_of s = Some m -> averaging_method m ->
  (forall i j, (i < ncol a)%nat -> (j < ncol a)%nat -> related a i j) ->
  (forall i, (i < ncol a)%nat -> (group i < k)%nat) -> (forall c, (c < k)%nat -> exists i, (i < ncol a)%nat /\ group i = c) ->
  (forall i j p q, (i < ncol a)%nat -> (j < ncol a)%nat -> (p < ncol a)%nat -> (q < ncol a)%nat -> group i = group j -> group p <> group q ->
     strength dm (correlation cm (col a p) (col a q)) < strength dm (correlation cm (col a i) (col a j))) ->
  exists h g, hc_init (list row) spearman_matrix (Some X) None None cm dm s oo = Ok h /\
    fst (hc_get_clusters (scipy_with lk) h (Z.of_nat k)) = Ok (labels_of g) /\ forall i j, (i < ncol a)%nat -> (j < ncol a)%nat -> same_group g i j <-> group i = group j.
Proof.
  intros lk X a cm dm s oo m k group HL HX Hc Hd Hs Ha HR Hk Hsur Hsep. assert (Hm : monotone_method m) by (destruct m; exact I || destruct Ha).
  destruct (C109_clusters lk X a cm dm s oo m HL HX Hc Hd Hs Hm HR) as (d & D & Ei & HD & DV & _).
  set (n := ncol a) in *. set (all := list_prod (seq 0 n) (seq 0 n)). set (val := fun p => D (fst p) (snd p)).
  assert (All : forall i j, (i < n)%nat -> (j < n)%nat -> In (i, j) all) by (intros i j Hi Hj; apply in_prod; apply in_seq; lia).
  assert (AllR : forall p, In p all -> (fst p < n)%nat /\ (snd p < n)%nat) by (intros [i j] H; apply in_prod_iff in H; destruct H as [H1 H2]; apply in_seq in H1; apply in_seq in H2; cbn; lia).
  set (inn := filter (fun p => Nat.eqb (group (fst p)) (group (snd p))) all). set (out := filter (fun p => negb (Nat.eqb (group (fst p)) (group (snd p)))) all).
  assert (Hn : (2 <= n)%nat) by apply HD.
  destruct (separating (D 0%nat 0%nat) (map val inn) (map val out)) as (lo & hi & Hlh & Hlo & Hhi).
  { assert (K : forall p q, (fst p < n)%nat /\ (snd p < n)%nat -> group (fst p) = group (snd p) -> In q out -> val p < val q).
    { intros p q [P1 P2] P3 Hq. apply filter_In in Hq. destruct Hq as [Hq G]. apply AllR in Hq. apply negb_true_iff, Nat.eqb_neq in G. unfold val. rewrite !DV by tauto.
      apply formula_decreasing; auto; try (apply correlation_bounds; apply HR; tauto). apply Hsep; tauto. }
    intros u v Hu Hv. apply in_map_iff in Hv. destruct Hv as (q & <- & Hq). destruct Hu as [<-|Hu].
    - apply (K (0%nat, 0%nat) q); cbn [fst snd]; auto. lia.
    - apply in_map_iff in Hu. destruct Hu as (p & <- & Hp). apply filter_In in Hp. destruct Hp as [Hp G]. apply Nat.eqb_eq in G. apply K; auto. }
  destruct (C107_recovers lk d n D s oo m lo hi k group HL HD Hs Ha Hk Hsur Hlh) as (g & Eg & Hg).
  - intros i j Hi Hj E. apply Hlo. right. change (D i j) with (val (i, j)). apply in_map. apply filter_In. split; [auto|]. cbn [fst snd]. now apply Nat.eqb_eq.
  - intros i j Hi Hj E. apply Hhi. change (D i j) with (val (i, j)). apply in_map. apply filter_In. split; [auto|]. cbn [fst snd]. now apply negb_true_iff, Nat.eqb_neq.
  - eauto 6.
Qed.
Print Assumptions C109_groups.

(** three columns: two that rise together and one that does not *)
Definition three_columns : arr2 := mkArr 4 3 (fun i j => nth i (nth j [[Fin 0; Fin 1; Fin 2; Fin 3]; [Fin 1; Fin 3; Fin 5; Fin 7]; [Fin 0; Fin 1; Fin 1; Fin 0]] []) NaN).
Lemma three_related : forall i j, (i < 3)%nat -> (j < 3)%nat -> related three_columns i j.
Proof.
  intros i j Hi Hj. unfold related.
  destruct i as [|[|[|i]]]; try lia; destruct j as [|[|[|j]]]; try lia; cbn; split; eexists; eexists; (split; [left; reflexivity|]); (split; [right; left; reflexivity|]); lra.
Qed.
Lemma inner_pearson : forall x y, inner x y = 0 -> pearson x y = 0.
Proof. intros x y H. unfold pearson. rewrite H. unfold Rdiv. apply Rmult_0_l. Qed.
Definition two_and_one (i : nat) : nat := match i with 2%nat => 1%nat | _ => 0%nat end.
Lemma three_correlations : forall i j, (i < 3)%nat -> (j < 3)%nat ->
  correlation "pearson-correlation" (col three_columns i) (col three_columns j) = if Nat.eqb (two_and_one i) (two_and_one j) then 1 else 0.
Proof.
  assert (C : correlation "pearson-correlation" (col three_columns 0) (col three_columns 1) = 1).
  { rewrite correlation_sym. unfold correlation. cbn [String.eqb Ascii.eqb Bool.eqb]. cbn. replace [1; 3; 5; 7] with (affine 2 1 [0; 1; 2; 3]) by (unfold affine; cbn [map]; repeat f_equal; ring).
    assert (V : varies [0; 1; 2; 3]) by (exists 0, 1; cbn; repeat split; auto; lra). rewrite pearson_affine by (auto; lra). rewrite pearson_self by exact V. destruct (Rlt_dec 0 2); lra. }
  assert (Z0 : correlation "pearson-correlation" (col three_columns 0) (col three_columns 2) = 0) by (apply inner_pearson; unfold inner, centred, rmean; cbn; lra).
  assert (Z1 : correlation "pearson-correlation" (col three_columns 1) (col three_columns 2) = 0) by (apply inner_pearson; unfold inner, centred, rmean; cbn; lra).
  intros i j Hi Hj. destruct i as [|[|[|i]]]; try lia; destruct j as [|[|[|j]]]; try lia; cbn [two_and_one Nat.eqb]; try assumption; try (rewrite correlation_sym; assumption);
    apply correlation_self; apply three_related; lia.
Qed.
Example C109_three_columns : forall lk s m, follows_scipy lk -> method_of s = Some m -> averaging_method m -> exists h g,
  hc_init (list row) spearman_matrix (Some (OArr2 three_columns)) None None "pearson-correlation" "angular" s false = Ok h /\
  fst (hc_get_clusters (scipy_with lk) h 2) = Ok (labels_of g) /\ same_group g 0 1 /\ ~ same_group g 0 2.
Proof.
  intros lk s m HL Hs Ha.
  destruct (C109_groups lk (OArr2 three_columns) three_columns "pearson-correlation" "angular" s false m 2 two_and_one HL) as (h & g & E1 & E2 & E3); auto.
  - split; [now left|cbn; lia].
  - now left.
  - now left.
  - exact three_related.
  - intros i _. destruct i as [|[|[|i]]]; cbn; lia.
  - intros c Hc. destruct c as [|[|c]]; [exists 0%nat|exists 2%nat|lia]; cbn; lia.
  - intros i j p q Hi Hj Hp Hq E N. rewrite !three_correlations by assumption. rewrite (proj2 (Nat.eqb_eq _ _) E), (proj2 (Nat.eqb_neq _ _) N). cbn. lra.
  - exists h, g. split; [exact E1|]. split; [exact E2|]. split; [apply E3; cbn; auto; lia|]. intros Q. apply E3 in Q; [discriminate|cbn; lia|cbn; lia].
Qed.
(** the same columns with the variation of information, and with a negated column *)
Definition three_data (j : nat) : list R := nth j [[0; 1; 2; 3]; [1; 3; 5; 7]; [0; 1; 1; 0]] [].
Lemma three_varies : forall j, (j < 3)%nat -> varies (three_data j).
Proof. intros j Hj. destruct j as [|[|[|j]]]; try lia; eexists; eexists; (split; [left; reflexivity|]); (split; [right; left; reflexivity|]); lra. Qed.
Example C109_three_var_info : forall lk s m, follows_scipy lk -> method_of s = Some m -> monotone_method m -> exists d g,
  hc_init (list row) spearman_matrix (Some (OArr2 three_columns)) None None "var_info" "angular" s false = Ok (mkHC d s false None) /\
  fst (hc_get_clusters (scipy_with lk) (mkHC d s false None) 2) = Ok (labels_of g) /\ numbered_groups g 2.
Proof.
  intros lk s m HL Hs Hm. destruct (C109_var_info lk (OArr2 three_columns) three_columns three_data "angular" s false m HL) as [K _]; auto.
  - split; [now left|cbn; lia].
  - split; [cbn; lia|]. intros j Hj. cbn [ncol three_columns] in Hj. destruct j as [|[|[|j]]]; try lia; split; reflexivity.
  - cbn; lia.
  - exact three_varies.
  - destruct K as (d & D & E & _ & _ & G).
    + intros i j Hij. cbn [ncol three_columns] in Hij. pose proof (three_correlations i j ltac:(lia) ltac:(lia)) as Q.
      assert (E : correlation "pearson-correlation" (col three_columns i) (col three_columns j) = pearson (three_data i) (three_data j)) by (destruct i as [|[|[|i]]]; try lia; destruct j as [|[|[|j]]]; try lia; reflexivity).
      rewrite E in Q. rewrite Q. destruct (Nat.eqb _ _); lra.
    + destruct (G 2%Z) as (g & E1 & _ & E2). exists d, g. split; [exact E|]. split; [exact E1|exact E2].
Qed.
Example C109_constant : forall lk s, follows_scipy lk -> exists a, hc_init (list row) spearman_matrix (Some (OArr2 a)) None None "spearman-correlation" "angular" s false = Raise AssertionError /\ nrow a = 2%nat /\ ncol a = 2%nat.
Proof.
  intros lk s HL. exists (mkArr 2 2 (fun i j => Fin (match j with O => 5 | _ => INR i end))). split; [|split; reflexivity].
  apply (C109_unrelated lk (mkArr 2 2 (fun i j => Fin (match j with O => 5 | _ => INR i end))) [] "spearman-correlation" "angular" s false 0 1 HL); cbn; try lia; [now right|now left|].
  intros [(x & y & Hx & Hy & N) _]. cbn in Hx, Hy. destruct Hx as [<-|[<-|[]]], Hy as [<-|[<-|[]]]; congruence.
Qed.
