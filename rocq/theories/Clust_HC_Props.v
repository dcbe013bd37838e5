(** The class HC (C71). *)
From Coq Require Import Reals Lra String List Arith Lia ZArith Bool.
From Verif Require Import Base Num Sums Sim_Model Dist_Model Info_Model Feat_Model Clust_Model Clust_Spec Clust_Gap_Props Clust_Silh_Props Clust_Opt_Props.
Import ListNotations.
Open Scope R_scope.

(** ** Construction *)
(** A given dist is used as it is, whatever the other arguments are (the methods are not even looked at).  Without dist: for the two correlation methods a
    given corr is converted, the data X are not looked at; without corr the correlations of X are; for var_info the information distances of
    X, and corr is not looked at; a missing input or an unknown method raises ValueError.  The linkage is not computed. *)
Theorem C71_source : forall L spearman X corr dist cm dm lm oo,
  (forall d, dist = Some d -> hc_init L spearman X corr dist cm dm lm oo = Ok (mkHC d lm oo None)) /\
  (dist = None ->
   (forall c, (cm = "pearson-correlation" \/ cm = "spearman-correlation")%string -> corr = Some c ->
      hc_init L spearman X corr dist cm dm lm oo = (d <- corr_to_dist c dm ;; Ok (mkHC d lm oo None))) /\
   (forall x, cm = "pearson-correlation"%string -> corr = None -> X = Some x ->
      hc_init L spearman X corr dist cm dm lm oo = (d <- get_corr_distance_matrix spearman x "pearson" dm None ;; Ok (mkHC d lm oo None))) /\
   (forall x, cm = "spearman-correlation"%string -> corr = None -> X = Some x ->
      hc_init L spearman X corr dist cm dm lm oo = (d <- get_corr_distance_matrix spearman x "spearman" dm None ;; Ok (mkHC d lm oo None))) /\
   (forall x, cm = "var_info"%string -> X = Some x ->
      hc_init L spearman X corr dist cm dm lm oo = (d <- get_info_distance_matrix x "var_info" None true ;; Ok (mkHC d lm oo None))) /\
   ((cm = "pearson-correlation" \/ cm = "spearman-correlation")%string -> corr = None -> X = None ->
      hc_init L spearman X corr dist cm dm lm oo = Raise ValueError) /\
   (cm = "var_info"%string -> X = None -> hc_init L spearman X corr dist cm dm lm oo = Raise ValueError) /\
   (cm <> "pearson-correlation"%string -> cm <> "spearman-correlation"%string -> cm <> "var_info"%string ->
      hc_init L spearman X corr dist cm dm lm oo = Raise ValueError)).
Proof.
  intros L sp X corr dist cm dm lm oo. split; [intros d ->; reflexivity|]. intros ->. unfold hc_init, compute_distance_matrix. repeat split.
  - intros c [-> | ->] ->; reflexivity.
  - intros x -> -> ->. reflexivity.
  - intros x -> -> ->. reflexivity.
  - intros x -> ->. reflexivity.
  - intros [-> | ->] -> ->; reflexivity.
  - intros -> ->. reflexivity.
  - intros H1 H2 H3. cbn [existsb]. apply String.eqb_neq in H1. apply String.eqb_neq in H2. apply String.eqb_neq in H3. rewrite H1, H2, H3. reflexivity.
Qed.

(** ** Histories *)
Lemma gap_loop_state : forall G cut dist nb ks acc s s', fst (gap_loop G cut dist nb ks acc s) = fst (gap_loop G cut dist nb ks acc s').
Proof.
  intros G cut dist nb. induction ks as [|k ks IH]; intros acc s s'; [reflexivity|]. cbn [gap_loop]. destruct (cut k) as [labels|e]; [|reflexivity].
  pose proof (proj1 (C69_global_state G s s' dist (OArr1 labels) nb None)) as Q.
  destruct (gap_statistic G s dist (OArr1 labels) nb None) as [r1 t1], (gap_statistic G s' dist (OArr1 labels) nb None) as [r2 t2]. cbn [fst] in Q. subst r2.
  destruct r1 as [gs|e]; [apply IH|reflexivity].
Qed.
(** The number of clusters does not depend on the state of np.random. *)
Theorem C71_optimum_state_free : forall G s s' cut dist m metric nb,
  fst (optimize_n_clusters G s cut dist m metric nb) = fst (optimize_n_clusters G s' cut dist m metric nb).
Proof.
  intros G s s' cut dist m metric nb. unfold optimize_n_clusters. destruct (String.eqb metric "gap").
  - pose proof (gap_loop_state G cut dist nb (nclust_range m) [] s s') as Q. destruct (gap_loop G cut dist nb (nclust_range m) [] s) as [r1 t1], (gap_loop G cut dist nb (nclust_range m) [] s') as [r2 t2].
    cbn [fst] in Q. subst r2. destruct r1 as [gs|e]; [|reflexivity]. destruct (np_where (gap_condition gs)); reflexivity.
  - destruct (String.eqb metric "silhouette"); reflexivity.
Qed.

Lemma step_cached : forall P G h s z o, hc_linkage h = Some z ->
  fst (hc_step P G (h, s) o) = cached_out P G s z (hc_dist h) o /\ hc_linkage (fst (snd (hc_step P G (h, s) o))) = Some z /\
  hc_dist (fst (snd (hc_step P G (h, s) o))) = dist_after (hc_dist h) [o].
Proof.
  intros P G h s z o H. destruct o as [|n|m metric nb|d|m|b|seed]; cbn [hc_step cached_out dist_after].
  - unfold hc_get_linkage. rewrite H. auto.
  - unfold hc_get_clusters, hc_get_linkage. rewrite H. auto.
  - unfold hc_get_optimal, hc_get_linkage. rewrite H. destruct (optimize_n_clusters G s (cuttree P z) (hc_dist h) m metric nb) as [r s']. auto.
  - auto.
  - auto.
  - auto.
  - auto.
Qed.
(** Once the linkage z has been computed it is the answer for good: whatever is called or assigned afterwards - dist, the linkage method,
    the ordering - each later access returns z and each later cut is a cut of z. *)
Theorem C71_linkage_fixed : forall P G z os h s, hc_linkage h = Some z ->
  length (fst (hc_run P G (h, s) os)) = length os /\
  forall i o, nth_error os i = Some o ->
    exists s', nth_error (fst (hc_run P G (h, s) os)) i = Some (cached_out P G s' z (dist_after (hc_dist h) (firstn i os)) o).
Proof.
  intros P G z. induction os as [|o os IH]; intros h s H.
  - split; [reflexivity|]. intros [|i] o; discriminate.
  - cbn [hc_run]. destruct (step_cached P G h s z o H) as (E1 & E2 & E3). destruct (hc_step P G (h, s) o) as [r [h1 s1]]. cbn [fst snd] in E1, E2, E3.
    destruct (IH h1 s1 E2) as (L & N). destruct (hc_run P G (h1, s1) os) as [rs hs2]. cbn [fst] in *. split; [cbn; congruence|].
    intros [|i] o' Ho; cbn [nth_error] in *.
    + injection Ho as <-. exists s. rewrite E1. reflexivity.
    + destruct (N i o' Ho) as (s' & Q). exists s'. rewrite Q. f_equal. f_equal. rewrite E3. cbn [firstn]. destruct o; reflexivity.
Qed.

Lemma cached_is_fresh : forall P G s s' z d lm oo o, link P d lm oo = Ok z -> cached_out P G s z d o = fresh_out P G s' d lm oo o.
Proof.
  intros P G s s' z d lm oo o E. destruct o; cbn [cached_out fresh_out]; rewrite ?E; cbn [bind]; try reflexivity. f_equal. apply C71_optimum_state_free.
Qed.
(** A program that assigns no attribute sees no history: every access and every method returns what it would return on a fresh object
    with the same attributes, in any order and any number of times, whatever is done to np.random in between. *)
Theorem C71_history_free : forall P G s0 os d lm oo s, Forall reads_only os ->
  fst (hc_run P G (mkHC d lm oo None, s) os) = map (fresh_out P G s0 d lm oo) os.
Proof.
  intros P G s0. induction os as [|o os IH]; intros d lm oo s H; [reflexivity|]. inversion H as [|? ? Ho Hos]; subst.
  assert (CA : forall z s1, link P d lm oo = Ok z -> fst (hc_run P G (mkHC d lm oo (Some z), s1) os) = map (fresh_out P G s0 d lm oo) os).
  { intros z s1 Ez. clear IH H Ho o. revert s1. induction os as [|o os IH]; intros s1; [reflexivity|]. inversion Hos as [|? ? Ho Hos']; subst. cbn [hc_run map].
    destruct (step_cached P G (mkHC d lm oo (Some z)) s1 z o eq_refl) as (E1 & _ & _).
    assert (E2 : fst (snd (hc_step P G (mkHC d lm oo (Some z), s1) o)) = mkHC d lm oo (Some z)).
    { destruct o; try contradiction; try reflexivity. cbn [hc_step]. unfold hc_get_optimal, hc_get_linkage. cbn [hc_linkage hc_dist].
      destruct (optimize_n_clusters G s1 (cuttree P z) d max_clust metric nb); reflexivity. }
    destruct (hc_step P G (mkHC d lm oo (Some z), s1) o) as [r [h1 s2]]. cbn [fst snd] in *. subst h1. specialize (IH Hos' s2). destruct (hc_run P G (mkHC d lm oo (Some z), s2) os) as [rs hs]. cbn [fst] in *.
    rewrite IH, E1. f_equal. apply cached_is_fresh. exact Ez. }
  cbn [hc_run map]. destruct o as [|n|m metric nb|d'|m|b|seed]; try contradiction; cbn [hc_step fresh_out].
  - unfold hc_get_linkage. cbn [hc_linkage hc_dist hc_linkage_method hc_optimal_ordering]. destruct (link P d lm oo) as [z|e] eqn:E.
    + specialize (CA z s eq_refl). destruct (hc_run P G (mkHC d lm oo (Some z), s) os) as [rs hs]. cbn [fst] in *. rewrite CA. reflexivity.
    + specialize (IH d lm oo s Hos). destruct (hc_run P G (mkHC d lm oo None, s) os) as [rs hs]. cbn [fst] in *. rewrite IH. reflexivity.
  - unfold hc_get_clusters, hc_get_linkage. cbn [hc_linkage hc_dist hc_linkage_method hc_optimal_ordering]. destruct (link P d lm oo) as [z|e] eqn:E.
    + specialize (CA z s eq_refl). destruct (hc_run P G (mkHC d lm oo (Some z), s) os) as [rs hs]. cbn [fst bind] in *. rewrite CA. reflexivity.
    + specialize (IH d lm oo s Hos). destruct (hc_run P G (mkHC d lm oo None, s) os) as [rs hs]. cbn [fst bind] in *. rewrite IH. reflexivity.
  - unfold hc_get_optimal, hc_get_linkage. cbn [hc_linkage hc_dist hc_linkage_method hc_optimal_ordering]. destruct (link P d lm oo) as [z|e] eqn:E.
    + cbn [hc_dist bind]. pose proof (C71_optimum_state_free G s s0 (cuttree P z) d m metric nb) as Q. destruct (optimize_n_clusters G s (cuttree P z) d m metric nb) as [r s1]. cbn [fst] in Q.
      specialize (CA z s1 eq_refl). destruct (hc_run P G (mkHC d lm oo (Some z), s1) os) as [rs hs]. cbn [fst] in *. rewrite CA, Q. reflexivity.
    + specialize (IH d lm oo s Hos). destruct (hc_run P G (mkHC d lm oo None, s) os) as [rs hs]. cbn [fst bind] in *. rewrite IH. reflexivity.
  - specialize (IH d lm oo (gseed G seed) Hos). destruct (hc_run P G (mkHC d lm oo None, gseed G seed) os) as [rs hs]. cbn [fst] in *. rewrite IH. reflexivity.
Qed.

(** So the linkage does not follow the attributes: assigning another dist after an access leaves the linkage of the first dist, and the number of
    clusters is then computed from the old linkage and the new dist. *)
Theorem C71_follows_attributes_refuted : exists P G s d d' lm oo,
  let outs := fst (hc_run P G (mkHC d lm oo None, s) [OpLinkage; OpSetDist d'; OpLinkage]) in
  exists z z', outs = [OutLinkage (Ok z); OutNone; OutLinkage (Ok z)] /\ link P d' lm oo = Ok z' /\ z <> z'.
Proof.
  exists (mkScipy obj (fun d _ _ => Ok d) (fun _ _ => Ok [])), zero_gen, tt, OOther, (OScalar NaN), "ward"%string, true. cbn. exists OOther, (OScalar NaN). repeat split. discriminate.
Qed.

(** ** Cases *)
Example C71_example_source : forall L spearman,
  hc_init L spearman None (Some (OArr2 (mkArr 2 2 (fun i j => Fin (if Nat.eqb i j then 1 else 0))))) None "pearson-correlation" "angular" "ward" true <> Raise ValueError /\
  hc_init L spearman None None None "pearson-correlation" "angular" "ward" true = Raise ValueError /\
  hc_init L spearman None None (Some OOther) "nonsense" "angular" "ward" true = Ok (mkHC OOther "ward" true None).
Proof.
  intros L sp. split; [|split; reflexivity]. unfold hc_init, compute_distance_matrix, corr_to_dist. cbn.
  destruct (negb _); cbn; [discriminate|]. destruct (negb _); cbn; discriminate.
Qed.
Definition toy_scipy : scipy := mkScipy obj (fun d _ _ => Ok d) (fun _ k => cut4 split_labels k).
Example C71_example_history : forall s s0,
  fst (hc_run toy_scipy zero_gen (mkHC (OArr2 (mkArr 4 4 (fun i j => Fin (two_pairs i j)))) "ward" true None, s)
        [OpClusters 2; OpReseed 7; OpOptimal 3 "gap" 1; OpLinkage; OpOptimal 3 "gap" 1]) =
  map (fresh_out toy_scipy zero_gen s0 (OArr2 (mkArr 4 4 (fun i j => Fin (two_pairs i j)))) "ward" true)
      [OpClusters 2; OpReseed 7; OpOptimal 3 "gap" 1; OpLinkage; OpOptimal 3 "gap" 1] /\
  fresh_out toy_scipy zero_gen s0 (OArr2 (mkArr 4 4 (fun i j => Fin (two_pairs i j)))) "ward" true (OpOptimal 3 "gap" 1) = OutOptimal (Ok 2%Z).
Proof.
  intros s s0. split.
  - apply C71_history_free. repeat constructor.
  - cbn [fresh_out toy_scipy link bind]. f_equal. apply C70_example_gap.
Qed.
Print Assumptions C71_source.
Print Assumptions C71_optimum_state_free.
Print Assumptions C71_linkage_fixed.
Print Assumptions C71_history_free.
Print Assumptions C71_follows_attributes_refuted.
