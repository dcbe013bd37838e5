(** The clusters of an HC object (C106). *)
From Coq Require Import Reals Lra String List Arith Lia Bool ZArith Permutation.
From Verif Require Import Base Num Sums Sim_Model Dist_Model Info_Model Feat_Model Clust_Model Clust_Spec Link_Model Link_Spec Link_Tree Link_Run.
Import ListNotations.
Open Scope R_scope.

(** ** What linkage accepts *)
Lemma link_input_ok : forall dist n D, distance_matrix dist n D -> exists D', link_input dist = Ok (n, D') /\ forall i j, (i < n)%nat -> (j < n)%nat -> D' i j = D i j.
Proof.
  intros dist n D (Hn & (a & Ha & Hr & Hc & Hv) & HD). unfold link_input. cbv zeta. assert (Ev : values2 dist = a) by (destruct Ha as [->|(names & ->)]; reflexivity). rewrite Ev, Hr, Hc.
  rewrite Nat.eqb_refl. cbn [negb].
  assert (B : forall f, (forall i j, (i < n)%nat -> (j < n)%nat -> f i j = true) -> forallb (fun i => forallb (fun j => f i j) (seq 0 n)) (seq 0 n) = true).
  { intros f Hf. apply forallb_forall. intros i Hi. apply forallb_forall. intros j Hj. apply in_seq in Hi. apply in_seq in Hj. apply Hf; lia. }
  rewrite B. 2:{ intros i j Hi Hj. rewrite !Hv by auto. destruct (HD i j Hi Hj) as (_ & -> & _). cbn [neqb]. unfold reqb. destruct (Req_EM_T (D j i) (D j i)); congruence. }
  cbn [negb]. replace (forallb (fun i => neqb (at2 a i i) (Fin 0)) (seq 0 n)) with true.
  2:{ symmetry. apply forallb_forall. intros i Hi. apply in_seq in Hi. rewrite Hv by lia. destruct (HD i i) as (_ & _ & ->); try lia. cbn [neqb]. unfold reqb. destruct (Req_EM_T 0 0); congruence. }
  cbn [negb]. replace (Nat.ltb n 2) with false by (symmetry; apply Nat.ltb_ge; lia).
  rewrite B. 2:{ intros i j Hi Hj. rewrite Hv by auto. reflexivity. }
  cbn [negb]. eexists. split; [reflexivity|]. intros i j Hi Hj. cbv beta. rewrite Hv by auto. reflexivity.
Qed.
(** the linkage there is *)
Lemma link_result : forall lk dist n D s oo m, follows_scipy lk -> distance_matrix dist n D -> method_of s = Some m ->
  exists zs D', lk dist s oo = Ok zs /\ link_run m n (start n D') zs /\ forall i j, (i < n)%nat -> (j < n)%nat -> D' i j = D i j.
Proof.
  intros lk dist n D s oo m HL Hd Hs. destruct (link_input_ok dist n D Hd) as (D' & E & HD'). pose proof (HL dist s oo) as Q. rewrite Hs, E in Q.
  destruct Q as (zs & E1 & E2). { intros i j Hi Hj. rewrite HD' by auto. apply Hd; auto. }
  exists zs, D'. auto.
Qed.

(** ** Cutting a linkage *)
Lemma numbered_same : forall g k, numbered g k -> numbered_groups g k.
Proof. intros g k H. exact H. Qed.
Lemma cut_spec : forall m n D zs, monotone_method m -> (forall i j, (i < n)%nat -> (j < n)%nat -> 0 <= D i j /\ D i j = D j i /\ D i i = 0) -> (2 <= n)%nat ->
  link_run m n (start n D) zs -> forall k,
  exists g, cut_tree zs k = Ok g /\ length g = n /\ numbered_groups g (clamp n k) /\
    forall i j, (i < n)%nat -> (j < n)%nat -> same_group g i j <-> together (firstn (n - clamp n k) (order_cluster_tree (to_tree zs))) i j.
Proof.
  intros m n D zs Hm HD Hn Hrun k. destruct (run_tree m n D Hm HD zs Hn Hrun) as (P & M & W & L). pose proof (run_rows m n D Hm HD zs Hrun) as En.
  unfold cut_tree. replace (existsb (fun r => if Rlt_dec (r_height r) 0 then true else false) zs) with false.
  2:{ symmetry. apply not_true_is_false. intros Q. apply existsb_exists in Q. destruct Q as (r & Hr & Q). pose proof (heights_nonneg m n D Hm HD zs Hrun r Hr). destruct (Rlt_dec (r_height r) 0); [lra|discriminate]. }
  cbv zeta. rewrite <- En. set (nodes := order_cluster_tree (to_tree zs)).
  assert (Ln : length nodes = (n - 1)%nat). { unfold nodes. rewrite (Permutation_length (proj2 (proj2 (order_tree _ M)))). exact L. }
  rewrite Ln. unfold column.
  assert (G : exists g, (if Nat.ltb (n - 1) (n - Nat.min n (Z.to_nat k)) then Ok (repeat 0%nat n) else Ok (fold_left (fun g t => join_groups g (leaves t)) (firstn (n - Nat.min n (Z.to_nat k)) nodes) (seq 0 n))) = Ok g /\
     g = fold_left (fun g t => join_groups g (leaves t)) (firstn (n - clamp n k) nodes) (seq 0 n)).
  { destruct (Nat.ltb_spec (n - 1) (n - Nat.min n (Z.to_nat k))) as [C|C].
    - assert (Z0 : Z.to_nat k = 0%nat) by lia. eexists. split; [reflexivity|]. assert (Ec : clamp n k = 1%nat) by (unfold clamp; lia). rewrite Ec.
      pose proof (cut_loop (to_tree zs) n P M (firstn (n - 1) nodes) []) as Q. cbv zeta in Q. rewrite firstn_all2 in Q |- * by lia. destruct Q as (Q1 & (Q2 & _) & _); [rewrite app_nil_r; reflexivity|].
      set (g := fold_left (fun g t => join_groups g (leaves t)) nodes (seq 0 n)) in *. rewrite Ln in Q2. replace (n - (n - 1))%nat with 1%nat in Q2 by lia.
      rewrite <- Q1. apply eq_sym. clear - Q2. assert (F : forall v, In v g -> v = 0%nat) by (intros v Hv; apply Q2 in Hv; lia). clear Q2. induction g as [|x g IH]; [reflexivity|].
      cbn [length repeat]. rewrite (F x) by now left. f_equal. apply IH. intros v Hv. apply F. now right.
    - eexists. split; [reflexivity|]. assert (Ec : clamp n k = Nat.min n (Z.to_nat k)) by (unfold clamp; lia). rewrite Ec. reflexivity. }
  destruct G as (g & E & Eg). exists g. split; [exact E|].
  assert (Lc : length (firstn (n - clamp n k) nodes) = (n - clamp n k)%nat) by (rewrite firstn_length, Ln; unfold clamp; lia).
  pose proof (cut_loop (to_tree zs) n P M (firstn (n - clamp n k) nodes) (skipn (n - clamp n k) nodes)) as Q. cbv zeta in Q. rewrite <- Eg in Q. destruct Q as (Q1 & Q2 & Q3).
  { rewrite firstn_skipn. reflexivity. }
  split; [exact Q1|]. split; [|exact Q3]. rewrite Lc in Q2. replace (n - (n - clamp n k))%nat with (clamp n k) in Q2 by (unfold clamp; lia). exact Q2.
Qed.

(** ** Clusters *)
Definition labels_of (g : list nat) : list num := map (fun v => Fin (INR v)) g.
(** For every symmetric matrix of distances (zero diagonal, none negative) of at least two items, given as an array or a DataFrame, for every one of
    the methods single, complete, average, weighted and ward, whatever closest pairs scipy's algorithm merges first and whatever
    the leaf ordering: get_clusters(k) numbers the items with 0 .. k-1 (1 group for k below 1, every item alone for k of the number of items and above), in the
    order in which the groups appear first, and every number is used.  The clusters are nested: items that are in one of k' clusters are in one of k
    clusters for every k <= k'. *)
Theorem C106_clusters : forall lk dist n D s oo m, follows_scipy lk -> distance_matrix dist n D -> method_of s = Some m -> monotone_method m ->
  exists groups : Z -> list nat,
    (forall k, fst (hc_get_clusters (scipy_with lk) (mkHC dist s oo None) k) = Ok (labels_of (groups k)) /\ length (groups k) = n /\ numbered_groups (groups k) (clamp n k)) /\
    (forall k k' i j, (k <= k')%Z -> (i < n)%nat -> (j < n)%nat -> same_group (groups k') i j -> same_group (groups k) i j).
Proof.
  intros lk dist n D s oo m HL Hd Hs Hm. destruct (link_result lk dist n D s oo m HL Hd Hs) as (zs & D' & El & Hrun & HD').
  assert (HD : forall i j, (i < n)%nat -> (j < n)%nat -> 0 <= D' i j /\ D' i j = D' j i /\ D' i i = 0) by (intros i j Hi Hj; rewrite !HD' by auto; apply Hd; auto).
  assert (Hn : (2 <= n)%nat) by apply Hd.
  set (groups := fun k => match cut_tree zs k with Ok g => g | Raise _ => [] end). exists groups.
  assert (Q : forall k, cut_tree zs k = Ok (groups k) /\ length (groups k) = n /\ numbered_groups (groups k) (clamp n k) /\
    forall i j, (i < n)%nat -> (j < n)%nat -> same_group (groups k) i j <-> together (firstn (n - clamp n k) (order_cluster_tree (to_tree zs))) i j).
  { intros k. destruct (cut_spec m n D' zs Hm HD Hn Hrun k) as (g & E & H). unfold groups. rewrite E. auto. }
  split.
  - intros k. destruct (Q k) as (Q1 & Q2 & Q3 & _). split; [|auto]. unfold hc_get_clusters, hc_get_linkage. cbn [hc_linkage hc_dist hc_linkage_method hc_optimal_ordering link scipy_with]. rewrite El.
    cbn [fst cuttree scipy_with]. rewrite Q1. reflexivity.
  - intros k k' i j Hk Hi Hj Hg. apply (proj2 (proj2 (proj2 (Q k')))) in Hg; auto. apply (proj2 (proj2 (proj2 (Q k)))); auto. destruct Hg as [->|(p & Hp & Hl)]; [now left|]. right. exists p. split; [|exact Hl].
    assert (Le : (n - clamp n k' <= n - clamp n k)%nat) by (unfold clamp; lia). revert Hp. generalize (order_cluster_tree (to_tree zs)). intros l Hp.
    rewrite <- (firstn_skipn (n - clamp n k') (firstn (n - clamp n k) l)). rewrite firstn_firstn, Nat.min_l by exact Le. apply in_or_app. now left.
Qed.
Print Assumptions C106_clusters.

(** ** Refusals *)
(** the values are finite, symmetric, zero on the diagonal, of two items at least *)
Definition acceptable (dist : obj) : Prop :=
  exists a n D, (dist = OArr2 a \/ exists names, dist = OFrame names a) /\ (2 <= n)%nat /\ nrow a = n /\ ncol a = n /\ (forall i j, (i < n)%nat -> (j < n)%nat -> at2 a i j = Fin (D i j)) /\
    forall i j, (i < n)%nat -> (j < n)%nat -> D i j = D j i /\ D i i = 0.
Lemma link_input_acceptable : forall dist n D, link_input dist = Ok (n, D) -> acceptable dist.
Proof.
  intros dist n D. unfold link_input. cbv zeta. assert (V : (dist = OArr2 (values2 dist) \/ exists names, dist = OFrame names (values2 dist)) \/ nrow (values2 dist) = 0%nat) by (destruct dist; cbn [values2]; eauto). set (a := values2 dist) in *. destruct (Nat.eqb_spec (nrow a) (ncol a)) as [E|E]; cbn [negb]; [|discriminate].
  destruct (forallb (fun i => forallb (fun j => neqb (at2 a i j) (at2 a j i)) (seq 0 (nrow a))) (seq 0 (nrow a))) eqn:E1; cbn [negb]; [|discriminate].
  destruct (forallb (fun i => neqb (at2 a i i) (Fin 0)) (seq 0 (nrow a))) eqn:E2; cbn [negb]; [|discriminate].
  destruct (Nat.ltb_spec (nrow a) 2) as [L|L]; [discriminate|].
  destruct (forallb (fun i => forallb (fun j => is_fin (at2 a i j)) (seq 0 (nrow a))) (seq 0 (nrow a))) eqn:E3; cbn [negb]; [|discriminate]. intros _.
  assert (B : forall f, forallb (fun i => forallb (fun j => f i j) (seq 0 (nrow a))) (seq 0 (nrow a)) = true -> forall i j, (i < nrow a)%nat -> (j < nrow a)%nat -> f i j = true).
  { intros f Hf i j Hi Hj. apply forallb_forall with (x := i) in Hf; [|apply in_seq; lia]. apply forallb_forall with (x := j) in Hf; [|apply in_seq; lia]. exact Hf. }
  assert (F : forall i j, (i < nrow a)%nat -> (j < nrow a)%nat -> at2 a i j = Fin (real_of (at2 a i j))).
  { intros i j Hi Hj. pose proof (B _ E3 i j Hi Hj) as Q. cbv beta in Q. destruct (at2 a i j); try discriminate. reflexivity. }
  exists a, (nrow a), (fun i j => real_of (at2 a i j)). repeat split; auto; [destruct V as [V|V]; [exact V|lia]| |].
  - pose proof (B _ E1 i j H H0) as Q. cbv beta in Q. rewrite (F i j), (F j i) in Q by auto. cbn [neqb] in Q. unfold reqb in Q. destruct (Req_EM_T (real_of (at2 a i j)) (real_of (at2 a j i))); [assumption|discriminate].
  - apply forallb_forall with (x := i) in E2; [|apply in_seq; lia]. rewrite (F i i) in E2 by auto. cbn [neqb] in E2. unfold reqb in E2. destruct (Req_EM_T (real_of (at2 a i i)) 0); [assumption|discriminate].
Qed.
Lemma link_input_error : forall dist e, link_input dist = Raise e -> e = ValueError.
Proof.
  intros dist e. unfold link_input. cbv zeta. destruct (negb (Nat.eqb _ _)); [congruence|]. destruct (negb _); [congruence|]. destruct (negb _); [congruence|]. destruct (Nat.ltb _ _); [congruence|]. destruct (negb _); congruence.
Qed.
(** An unknown method, and a matrix that is not square, not symmetric, not zero on the diagonal, not finite (the NaN of a constant column is enough) or
    has fewer than two rows, raises ValueError: nothing is computed when the object is constructed, so this happens when clusters are asked for. *)
(** (dist is a 2-d array or a DataFrame.) *)
Theorem C106_refused : forall lk dist s oo a, dist = OArr2 a \/ (exists names, dist = OFrame names a) -> follows_scipy lk -> method_of s = None \/ ~ acceptable dist ->
  (forall k, fst (hc_get_clusters (scipy_with lk) (mkHC dist s oo None) k) = Raise ValueError) /\
  (forall L spearman X corr cm dm, hc_init L spearman X corr (Some dist) cm dm s oo = Ok (mkHC dist s oo None)) /\
  (forall G st mc metric nb, fst (fst (hc_get_optimal (scipy_with lk) G st (mkHC dist s oo None) mc metric nb)) = Raise ValueError).
Proof.
  intros lk dist s oo a _ HL Hb. assert (E : lk dist s oo = Raise ValueError).
  { pose proof (HL dist s oo) as Q. destruct Hb as [Hb|Hb]; [rewrite Hb in Q; exact Q|]. destruct (method_of s); [|exact Q].
    destruct (link_input dist) as [[n D]|e] eqn:E; [|exact Q]. exfalso. apply Hb. eapply link_input_acceptable; eauto. }
  split; [|split; [reflexivity|]].
  - intros k. unfold hc_get_clusters, hc_get_linkage. cbn [hc_linkage hc_dist hc_linkage_method hc_optimal_ordering link scipy_with]. rewrite E. reflexivity.
  - intros G st mc metric nb. unfold hc_get_optimal, hc_get_linkage. cbn [hc_linkage hc_dist hc_linkage_method hc_optimal_ordering link scipy_with]. rewrite E. reflexivity.
Qed.
Print Assumptions C106_refused.
(** a matrix with a NaN is not acceptable *)
Example C106_nan_refused : forall a i j, (i < nrow a)%nat -> (j < ncol a)%nat -> at2 a i j = NaN -> ~ acceptable (OFrame [] a).
Proof.
  intros a i j Hi Hj E (b & n & D & Eb & Hn & H1 & H2 & H3 & _). assert (b = a) as -> by (destruct Eb as [Eb|[names Eb]]; congruence). rewrite H3 in E by congruence. discriminate.
Qed.

(** ** There is such a linkage function *)
Lemma closest_spec : forall c, NoDup (active c) -> (2 <= length (active c))%nat -> exists x y, closest c = Some (x, y) /\ In x (active c) /\ In y (active c) /\ x <> y /\
  forall u v, In u (active c) -> In v (active c) -> u <> v -> cdist c x y <= cdist c u v.
Proof.
  intros c Nd Hl. unfold closest.
  set (f := fun (best : option (nat * nat)) p => if Nat.eqb (fst p) (snd p) then best else match best with None => Some p | Some b => if Rlt_dec (cdist c (fst p) (snd p)) (cdist c (fst b) (snd b)) then Some p else best end).
  set (good := fun (seen : list (nat * nat)) (o : option (nat * nat)) => match o with
    | None => forall p, In p seen -> fst p = snd p
    | Some b => In b seen /\ fst b <> snd b /\ forall p, In p seen -> fst p <> snd p -> cdist c (fst b) (snd b) <= cdist c (fst p) (snd p) end).
  assert (G : forall l seen o, good seen o -> good (seen ++ l) (fold_left f l o)).
  { induction l as [|p l IH]; intros seen o Ho; cbn [fold_left]; [rewrite app_nil_r; exact Ho|]. replace (seen ++ p :: l) with ((seen ++ [p]) ++ l) by (rewrite <- app_assoc; reflexivity). apply IH.
    unfold f. destruct (Nat.eqb_spec (fst p) (snd p)) as [E|E].
    - destruct o as [b|]; cbn [good] in *.
      + destruct Ho as (A & B & C). split; [apply in_or_app; now left|]. split; [exact B|]. intros q Hq Nq. apply in_app_or in Hq. destruct Hq as [Hq|[<-|[]]]; auto. contradiction.
      + intros q Hq. apply in_app_or in Hq. destruct Hq as [Hq|[<-|[]]]; auto.
    - destruct o as [b|]; cbn [good] in *.
      + destruct Ho as (A & B & C). destruct (Rlt_dec (cdist c (fst p) (snd p)) (cdist c (fst b) (snd b))) as [L|L]; cbn [good].
        * split; [apply in_or_app; right; now left|]. split; [exact E|]. intros q Hq Nq. apply in_app_or in Hq. destruct Hq as [Hq|[<-|[]]]; [specialize (C q Hq Nq); lra|lra].
        * split; [apply in_or_app; now left|]. split; [exact B|]. intros q Hq Nq. apply in_app_or in Hq. destruct Hq as [Hq|[<-|[]]]; [auto|lra].
      + split; [apply in_or_app; right; now left|]. split; [exact E|]. intros q Hq Nq. apply in_app_or in Hq. destruct Hq as [Hq|[<-|[]]]; [specialize (Ho q Hq); contradiction|lra]. }
  specialize (G (list_prod (active c) (active c)) [] None). cbn [app] in G. destruct (fold_left f (list_prod (active c) (active c)) None) as [[x y]|] eqn:E.
  - exists x, y. destruct G as (A & B & C); [intros p []|]. cbn [fst snd] in *. apply in_prod_iff in A. repeat split; try apply A; auto. intros u v Hu Hv Nuv. apply (C (u, v)); [apply in_prod; auto|exact Nuv].
  - exfalso. destruct (active c) as [|u [|v l]] eqn:Ea; cbn [length] in Hl; try lia. inversion Nd; subst. apply H1. left. symmetry.
    apply (G ltac:(intros p []) (u, v)). apply in_prod; [now left|right; now left].
Qed.
Lemma filter_length : forall l x, NoDup l -> In x l -> S (length (filter (fun i => negb (Nat.eqb i x)) l)) = length l.
Proof.
  induction l as [|z l IH]; intros x N H; [destruct H|]. inversion N; subst. cbn [filter length]. destruct (Nat.eqb_spec z x) as [->|E]; cbn [negb].
  - f_equal. clear IH N H3 H. induction l as [|b l IHl]; [reflexivity|]. cbn [filter]. replace (Nat.eqb b x) with false by (symmetry; apply Nat.eqb_neq; intros ->; apply H2; now left). cbn [negb length]. f_equal. apply IHl; intros Q; apply H2; now right.
  - destruct H as [->|H]; [congruence|]. cbn [length]. rewrite (IH x H3 H). reflexivity.
Qed.
Lemma greedy_run : forall m todo new c, NoDup (active c) -> (forall u, In u (active c) -> (u < new)%nat) -> length (active c) = S todo -> link_run m new c (greedy m todo new c).
Proof.
  intros m. induction todo as [|todo IH]; intros new c Nd Hr Hl; cbn [greedy].
  - destruct (active c) as [|x [|y l]] eqn:E; cbn [length] in Hl; try lia. now apply link_done with x.
  - destruct (closest_spec c Nd) as (x & y & E & Hx & Hy & Nxy & Hmin); [lia|]. rewrite E. apply link_step; auto. apply IH.
    + unfold merge. cbv zeta. cbn [active]. apply Permutation_NoDup with (l := new :: filter (fun i => negb (Nat.eqb i x) && negb (Nat.eqb i y)) (active c)); [apply Permutation_cons_append|]. constructor; [|apply NoDup_filter; exact Nd].
      intros H. apply filter_In in H. destruct H as [H _]. apply Hr in H. lia.
    + intros u Hu. apply active_merge in Hu. destruct Hu as [(Hu & _)| ->]; [apply Hr in Hu|]; lia.
    + unfold merge. cbv zeta. cbn [active]. rewrite app_length. cbn [length]. rewrite <- filter_filter.
      pose proof (filter_length (active c) x Nd Hx) as E1. pose proof (filter_length (filter (fun i => negb (Nat.eqb i x)) (active c)) y (NoDup_filter _ Nd)) as E2.
      rewrite <- E2 in E1; [lia|]. apply filter_In. split; [exact Hy|]. apply negb_true_iff. apply Nat.eqb_neq. auto.
Qed.
Theorem C106_linkage_exists : follows_scipy greedy_linkage.
Proof.
  intros dist s oo. unfold greedy_linkage. destruct (method_of s) as [m|]; [|reflexivity]. destruct (link_input dist) as [[n D]|e] eqn:E; [|reflexivity]. intros _.
  eexists. split; [reflexivity|]. assert (Hn : (2 <= n)%nat).
  { unfold link_input in E. cbv zeta in E. destruct (negb (Nat.eqb _ _)); [discriminate|]. destruct (negb _); [discriminate|]. destruct (negb _); [discriminate|].
    destruct (Nat.ltb_spec (nrow (values2 dist)) 2) as [L|L]; [discriminate|]. destruct (negb _); [discriminate|]. injection E as <- _. exact L. }
  apply greedy_run.
  - apply seq_NoDup.
  - intros u Hu. apply in_seq in Hu. lia.
  - cbn [active start]. rewrite seq_length. lia.
Qed.
Print Assumptions C106_linkage_exists.

(** ** Centroid and median linkage *)
Definition equidistant (d : R) : arr2 := mkArr 3 3 (fun i j => if Nat.eqb i j then Fin 0 else Fin d).
Lemma equidistant_matrix : forall d, 0 < d -> distance_matrix (OArr2 (equidistant d)) 3 (fun i j => if Nat.eqb i j then 0 else d).
Proof.
  intros d Hd. split; [lia|]. split.
  - exists (equidistant d). split; [now left|]. repeat split. intros i j _ _. cbn [at2 equidistant]. destruct (Nat.eqb i j); reflexivity.
  - intros i j _ _. rewrite Nat.eqb_refl. rewrite (Nat.eqb_sym j i). destruct (Nat.eqb i j); repeat split; lra.
Qed.
Lemma two_rows : forall m d x y h k u v, h < d -> 0 <= h -> (m = Centroid \/ m = Median) -> (exists z, Permutation [x; y; z] [0; 1; 2]%nat /\ (u = 3%nat /\ v = z \/ u = z /\ v = 3%nat)) ->
  cut_tree [mkRow x y d k; mkRow u v h 3] 2 = Ok [0; 0; 0]%nat.
Proof.
  intros m d x y h k u v Hh H0 _ (z & P & Huv).
  assert (Hall : In x [0; 1; 2]%nat /\ In y [0; 1; 2]%nat /\ In z [0; 1; 2]%nat) by (repeat split; eapply Permutation_in; [exact P| |exact P| |exact P|]; cbn; auto).
  assert (Nd : NoDup [x; y; z]) by (eapply Permutation_NoDup; [apply Permutation_sym; exact P|]; repeat constructor; cbn; intuition; discriminate).
  assert (Ne : x <> y /\ x <> z /\ y <> z) by (inversion Nd as [|? ? A1 A2]; subst; inversion A2 as [|? ? A3 A4]; subst; cbn in *; intuition).
  unfold cut_tree. cbn [existsb r_height]. destruct (Rlt_dec d 0) as [C|_]; [lra|]. destruct (Rlt_dec h 0) as [C|_]; [lra|]. cbn [orb].
  cbv [In] in Hall. destruct Hall as ([<-|[<-|[<-|[]]]] & [<-|[<-|[<-|[]]]] & [<-|[<-|[<-|[]]]]); try (exfalso; lia);
    destruct Huv as [[-> ->]|[-> ->]]; cbn; (destruct (Rlt_dec h d) as [_|C]; [|lra]); reflexivity.
Qed.
Lemma third : forall x y, In x [0; 1; 2]%nat -> In y [0; 1; 2]%nat -> x <> y -> exists z, Permutation [x; y; z] [0; 1; 2]%nat /\ filter (fun i => negb (Nat.eqb i x) && negb (Nat.eqb i y)) [0; 1; 2]%nat = [z] /\ z <> x /\ z <> y.
Proof.
  intros x y Hx Hy N. cbv [In] in Hx, Hy. destruct Hx as [<-|[<-|[<-|[]]]], Hy as [<-|[<-|[<-|[]]]]; try congruence;
    [exists 2%nat|exists 1%nat|exists 2%nat|exists 0%nat|exists 1%nat|exists 0%nat]; (split; [|split; [reflexivity|split; discriminate]]).
  - apply Permutation_refl.
  - apply perm_skip, perm_swap.
  - apply perm_swap.
  - apply Permutation_sym. change [0; 1; 2]%nat with ([0]%nat ++ [1; 2]%nat). apply Permutation_app_comm.
  - change [2; 0; 1]%nat with ([2]%nat ++ [0; 1]%nat). apply (Permutation_app_comm [2]%nat [0; 1]%nat).
  - apply Permutation_trans with [1; 2; 0]%nat; [apply perm_swap|]. apply Permutation_sym. apply (Permutation_app_comm [0]%nat [1; 2]%nat).
Qed.
(** The claim fails for centroid and median linkage, which the class offers too: three items at equal distances (the third one is closer to the centre of the
    other two than these are to each other) are one cluster when two are asked for.  cut_tree orders the merges by their heights and undoes the last one first, which is not
    the one at the top of the tree. *)
Theorem C106_centroid_refuted : forall lk s oo d, follows_scipy lk -> (s = "centroid" \/ s = "median")%string -> 0 < d ->
  distance_matrix (OArr2 (equidistant d)) 3 (fun i j => if Nat.eqb i j then 0 else d) /\
  fst (hc_get_clusters (scipy_with lk) (mkHC (OArr2 (equidistant d)) s oo None) 2) = Ok [Fin 0; Fin 0; Fin 0].
Proof.
  intros lk s oo d HL Hs Hd. pose proof (equidistant_matrix d Hd) as Hm. split; [exact Hm|].
  assert (Em : exists m, method_of s = Some m /\ (m = Centroid \/ m = Median)) by (destruct Hs as [->| ->]; [exists Centroid|exists Median]; auto). destruct Em as (m & Em & Hmm).
  destruct (link_result lk _ 3 _ s oo m HL Hm Em) as (zs & D' & El & Hrun & HD').
  unfold hc_get_clusters, hc_get_linkage. cbn [hc_linkage hc_dist hc_linkage_method hc_optimal_ordering link scipy_with]. rewrite El. cbn [fst cuttree scipy_with].
  assert (E : cut_tree zs 2 = Ok [0; 0; 0]%nat); [|rewrite E; cbn; reflexivity].
  inversion Hrun as [? ? ? Ha|new c x y rows Hx Hy Nxy Hmin Hrest]; subst; [discriminate Ha|]. cbn [start active cdist csize seq] in *.
  destruct (third x y Hx Hy Nxy) as (z & P & Ef & Zx & Zy).
  assert (Rx : (x < 3)%nat) by (cbv [In] in Hx; lia). assert (Ry : (y < 3)%nat) by (cbv [In] in Hy; lia).
  assert (Rz : (z < 3)%nat). { assert (Q : In z [0; 1; 2]%nat) by (eapply Permutation_in; [exact P|right; right; now left]). cbv [In] in Q. lia. }
  assert (Dv : forall i j, (i < 3)%nat -> (j < 3)%nat -> i <> j -> D' i j = d) by (intros i j Hi Hj N; rewrite HD' by auto; replace (Nat.eqb i j) with false by (symmetry; apply Nat.eqb_neq; auto); reflexivity).
  inversion Hrest as [? ? w Ha|new' c' u v rows' Hu Hv Nuv Hmin' Hrest']; subst.
  { unfold merge in Ha. cbv zeta in Ha. cbn [active start seq] in Ha. rewrite Ef in Ha. discriminate Ha. }
  assert (Huv : u = 3%nat /\ v = z \/ u = z /\ v = 3%nat).
  { unfold merge in Hu, Hv. cbv zeta in Hu, Hv. cbn [active start seq] in Hu, Hv. rewrite Ef in Hu, Hv. cbn in Hu, Hv. lia. }
  assert (Hh : cdist (merge m (mkClustering [0; 1; 2]%nat (fun _ => 1%nat) D') x y 3) u v = sqrt (3 / 4) * d).
  { assert (Q : cdist (merge m (mkClustering [0; 1; 2]%nat (fun _ => 1%nat) D') x y 3) u v = update m (D' x z) (D' y z) (D' x y) (INR 1) (INR 1) (INR 1)).
    { unfold merge. cbv zeta. cbn [cdist csize]. destruct Huv as [[-> ->]|[-> ->]]; [reflexivity|]. replace (Nat.eqb z 3) with false by (symmetry; apply Nat.eqb_neq; lia). reflexivity. }
    rewrite Q, !Dv by auto. rewrite <- (sqrt_square d) at 4 by lra. rewrite <- sqrt_mult by nra. destruct Hmm as [->| ->]; cbn [update]; f_equal; cbn [INR]; field. }
  assert (Hlast : rows' = []). { inversion Hrest' as [|? ? a b ? Ha Hb Nab]; subst; [reflexivity|]. exfalso. apply Nab. unfold merge in Ha, Hb. cbv zeta in Ha, Hb. cbn [active start seq] in Ha, Hb.
    rewrite Ef in Ha, Hb. destruct Huv as [[-> ->]|[-> ->]]; cbn [filter app Nat.eqb negb andb] in Ha, Hb; rewrite ?Nat.eqb_refl in Ha, Hb; cbn [negb andb] in Ha, Hb; rewrite ?andb_false_r in Ha, Hb; cbn in Ha, Hb; lia. }
  rewrite Hlast. unfold start in *. cbn [seq] in *. rewrite Hh. rewrite (Dv x y) by auto.
  assert (S1 : sqrt (3 / 4) < 1). { apply Rlt_le_trans with (sqrt 1); [apply sqrt_lt_1; lra|rewrite sqrt_1; lra]. }
  assert (S2 : 0 <= sqrt (3 / 4)) by apply sqrt_pos.
  match goal with |- cut_tree [_; mkRow u v ?h ?k] 2 = _ => replace k with 3%nat end.
  - apply (two_rows m); [nra|nra|exact Hmm|]. exists z. auto.
  - unfold merge. cbv zeta. cbn [csize]. destruct Huv as [[-> ->]|[-> ->]]; cbn [Nat.eqb]; replace (Nat.eqb z 3) with false by (symmetry; apply Nat.eqb_neq; lia); reflexivity.
Qed.
Print Assumptions C106_centroid_refuted.
