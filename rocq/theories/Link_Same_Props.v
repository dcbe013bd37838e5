(** What the clusters of an HC object depend on (C113). *)
From Coq Require Import Reals Lra Psatz String List Arith Lia Bool ZArith Permutation.
From Verif Require Import Base Num Sums Sim_Model Dist_Model Dist_Spec Dist_Proofs Dist_Props Dist_More_Props Info_Model Feat_Model Clust_Model Clust_Spec Link_Model Link_Spec Link_Tree Link_Run Link_Cut_Props Link_Sep Link_Rows_Props Link_Recover_Props Link_Data_Props Link_Same.
Import ListNotations.
Open Scope R_scope.

(** F is what get_clusters may return, as a function of n_clusters: what it returns for one way in which scipy may choose among closest pairs *)
Definition possible_clusters (dist : obj) (s : string) (oo : bool) (F : Z -> res (list num)) : Prop :=
  exists lk, follows_scipy lk /\ forall k, F k = fst (hc_get_clusters (scipy_with lk) (mkHC dist s oo None) k).

(** ** A linkage function with a given result *)
Definition matrix_is (dist : obj) (n : nat) (D : nat -> nat -> R) : bool :=
  match link_input dist with
  | Ok (n', D') => Nat.eqb n' n && forallb (fun i => forallb (fun j => reqb (D' i j) (D i j)) (seq 0 n)) (seq 0 n)
  | Raise _ => false
  end.
Definition with_result (lk : obj -> string -> bool -> res (list row)) (n : nat) (D : nat -> nat -> R) (s : string) (oo : bool) (zs : list row) : obj -> string -> bool -> res (list row) :=
  fun dist s' oo' => if String.eqb s' s && Bool.eqb oo' oo && matrix_is dist n D then Ok zs else lk dist s' oo'.
Lemma with_result_follows : forall lk n D s oo zs m, follows_scipy lk -> method_of s = Some m -> link_run m n (start n D) zs -> follows_scipy (with_result lk n D s oo zs).
Proof.
  intros lk n D s oo zs m HL Hs Hrun dist s' oo'. pose proof (HL dist s' oo') as Q. unfold with_result. destruct (String.eqb_spec s' s) as [->|_]; [|exact Q]. destruct (Bool.eqb oo' oo); [|exact Q]. cbn [andb].
  unfold matrix_is. rewrite Hs in *. destruct (link_input dist) as [[n' D']|e]; [|exact Q]. destruct (Nat.eqb_spec n' n) as [->|_]; [|exact Q]. cbn [andb].
  destruct (forallb (fun i => forallb (fun j => reqb (D' i j) (D i j)) (seq 0 n)) (seq 0 n)) eqn:E; [|exact Q]. intros _. exists zs. split; [reflexivity|].
  apply (run_ext m n (start n D) zs Hrun); try reflexivity. intros u v Hu Hv _. cbn [cdist start active] in *. rewrite forallb_forall in E. specialize (E u Hu). cbv beta in E. rewrite forallb_forall in E. specialize (E v Hv). cbv beta in E.
  unfold reqb in E. destruct (Req_EM_T (D' u v) (D u v)); [assumption|discriminate].
Qed.
Lemma with_result_at : forall lk dist n D s oo zs, distance_matrix dist n D -> with_result lk n D s oo zs dist s oo = Ok zs.
Proof.
  intros lk dist n D s oo zs Hd. unfold with_result, matrix_is. destruct (link_input_ok dist n D Hd) as (D' & -> & HD). rewrite String.eqb_refl, Bool.eqb_reflx, Nat.eqb_refl. cbn [andb].
  replace (forallb _ _) with true; [reflexivity|]. symmetry. apply forallb_forall. intros i Hi. apply forallb_forall. intros j Hj. apply in_seq in Hi. apply in_seq in Hj. unfold reqb. rewrite HD by lia. destruct (Req_EM_T (D i j) (D i j)); congruence.
Qed.
Lemma clusters_of_linkage : forall lk dist s oo zs k g, lk dist s oo = Ok zs -> cut_tree zs k = Ok g -> fst (hc_get_clusters (scipy_with lk) (mkHC dist s oo None) k) = Ok (labels_of g).
Proof. intros lk dist s oo zs k g El Eg. unfold hc_get_clusters, hc_get_linkage. cbn [hc_linkage hc_dist hc_linkage_method hc_optimal_ordering link scipy_with]. rewrite El. cbn [fst cuttree scipy_with]. rewrite Eg. reflexivity. Qed.
Lemma transformed : forall dist dist' n D D' s oo m f p F, distance_matrix dist n D -> distance_matrix dist' n D' -> method_of s = Some m -> monotone_method m -> increasing f -> commutes m f ->
  (forall i, (i < n)%nat -> (p i < n)%nat) -> (forall i j, (i < n)%nat -> (j < n)%nat -> p i = p j -> i = j) ->
  (forall i j, (i < n)%nat -> (j < n)%nat -> i <> j -> D' (p i) (p j) = f (D i j)) ->
  possible_clusters dist s oo F -> exists F', possible_clusters dist' s oo F' /\
    forall k, exists g g', F k = Ok (labels_of g) /\ F' k = Ok (labels_of g') /\ length g = n /\ length g' = n /\ numbered_groups g (clamp n k) /\ numbered_groups g' (clamp n k) /\
      forall i j, (i < n)%nat -> (j < n)%nat -> same_group g i j <-> same_group g' (p i) (p j).
Proof.
  intros dist dist' n D D' s oo m f p F Hd Hd' Hs Hm Hf Hc Hp Pinj HDD (lk & HL & HF). destruct (link_result_D lk dist n D s oo m HL Hd Hs) as (zs & El & Hrun).
  destruct (same_runs m f n D D' p zs Hm Hf Hc (proj1 Hd) (proj2 (proj2 Hd)) (proj2 (proj2 Hd')) Hp Pinj HDD Hrun) as (Hrun' & Hcut).
  set (zs' := map (rmap f n p) zs) in *. set (lk' := with_result lk n D' s oo zs'). exists (fun k => fst (hc_get_clusters (scipy_with lk') (mkHC dist' s oo None) k)). split.
  - exists lk'. split; [|reflexivity]. apply (with_result_follows lk n D' s oo zs' m); auto.
  - intros k. destruct (Hcut k) as (g & g' & Eg & Eg' & L & L' & Ng & Ng' & H). exists g, g'. rewrite HF. rewrite (clusters_of_linkage lk dist s oo zs k g El Eg).
    rewrite (clusters_of_linkage lk' dist' s oo zs' k g' (with_result_at lk dist' n D' s oo zs' Hd') Eg'). repeat (split; [assumption || reflexivity|]). intros i j Hi Hj. symmetry. apply H; assumption.
Qed.
(** items keep their places: the labels are the same *)
Lemma transformed_same : forall dist dist' n D D' s oo m f F, distance_matrix dist n D -> distance_matrix dist' n D' -> method_of s = Some m -> monotone_method m -> increasing f -> commutes m f ->
  (forall i j, (i < n)%nat -> (j < n)%nat -> i <> j -> D' i j = f (D i j)) -> possible_clusters dist s oo F -> possible_clusters dist' s oo F.
Proof.
  intros dist dist' n D D' s oo m f F Hd Hd' Hs Hm Hf Hc HDD HF. destruct (transformed dist dist' n D D' s oo m f (fun i => i) F Hd Hd' Hs Hm Hf Hc) as (F' & (lk & HL & HF') & H); auto.
  exists lk. split; [exact HL|]. intros k. rewrite <- HF'. destruct (H k) as (g & g' & -> & -> & L & L' & Ng & Ng' & Hg). replace g' with g; [reflexivity|]. apply (numbered_unique g g' (clamp n k) (clamp n k)); auto; [congruence|]. rewrite L. exact Hg.
Qed.

(** ** The unit of the distances *)
Theorem C113_scale : forall dist dist' n D c s oo m F, 0 < c -> distance_matrix dist n D -> distance_matrix dist' n (fun i j => c * D i j) -> method_of s = Some m -> monotone_method m ->
  possible_clusters dist s oo F <-> possible_clusters dist' s oo F.
Proof.
  intros dist dist' n D c s oo m F Hc Hd Hd' Hs Hm. split.
  - apply (transformed_same dist dist' n D (fun i j => c * D i j) s oo m (fun x => c * x) F); auto. { intros x y H. apply Rmult_lt_compat_l; auto. } apply commutes_scale. exact Hc.
  - assert (Hi : 0 < / c) by (apply Rinv_0_lt_compat; exact Hc). apply (transformed_same dist' dist n (fun i j => c * D i j) D s oo m (fun x => / c * x) F); auto. { intros x y H. apply Rmult_lt_compat_l; auto. } { apply commutes_scale. exact Hi. }
    intros i j _ _ _. field. lra.
Qed.
Print Assumptions C113_scale.

(** For single, complete, average and weighted linkage a constant may be added to all distances of two items as well *)
Theorem C113_shift : forall dist dist' n D D' c b s oo m F, 0 < c -> distance_matrix dist n D -> distance_matrix dist' n D' -> (forall i j, (i < n)%nat -> (j < n)%nat -> i <> j -> D' i j = c * D i j + b) ->
  method_of s = Some m -> averaging_method m -> possible_clusters dist s oo F <-> possible_clusters dist' s oo F.
Proof.
  intros dist dist' n D D' c b s oo m F Hc Hd Hd' HDD Hs Ha. assert (Hm : monotone_method m) by (destruct m; exact I || destruct Ha). split.
  - apply (transformed_same dist dist' n D D' s oo m (fun x => c * x + b) F); auto. { apply affine_increasing. exact Hc. } apply commutes_affine; auto.
  - assert (Hi : 0 < / c) by (apply Rinv_0_lt_compat; exact Hc). apply (transformed_same dist' dist n D' D s oo m (fun x => / c * x + - (b / c)) F); auto. { apply affine_increasing. exact Hi. } { apply commutes_affine; auto. }
    intros i j H1 H2 N. rewrite HDD by auto. field. lra.
Qed.
Print Assumptions C113_shift.

(** ** The order of the distances *)
Definition pair_max (l : list (R * R)) (q : R * R) : Prop := In q l /\ forall r, In r l -> fst r <= fst q.
Lemma pair_max_exists : forall l, l <> [] -> exists q, pair_max l q.
Proof.
  induction l as [|x l IH]; intros H; [congruence|]. destruct l as [|y l]. { exists x. split; [now left|]. intros r [<-|[]]. lra. }
  destruct IH as (q & Iq & Mq); [discriminate|]. destruct (Rle_dec (fst x) (fst q)) as [L|L].
  - exists q. split; [now right|]. intros r [<-|Hr]; auto.
  - exists x. split; [now left|]. intros r [<-|Hr]; [lra|]. specialize (Mq r Hr). lra.
Qed.
Lemma filter_shorter : forall (A : Type) (g : A -> bool) l, (length (filter g l) <= length l)%nat.
Proof. intros A g l. induction l as [|x l IH]; [reflexivity|]. cbn [filter]. destruct (g x); cbn [length]; lia. Qed.
Lemma interpolate : forall N l, (length l <= N)%nat -> (forall q r : R * R, In q l -> In r l -> fst q < fst r <-> snd q < snd r) -> exists f, increasing f /\ forall q, In q l -> f (fst q) = snd q.
Proof.
  induction N as [|N IH]; intros l L H.
  - destruct l; [|cbn [length] in L; lia]. exists (fun x => x). split; [intros x y; auto|intros q []].
  - destruct l as [|x0 l0]. { exists (fun x => x). split; [intros x y; auto|intros q []]. } set (l := x0 :: l0) in *.
    destruct (pair_max_exists l) as ([A B] & Im & Mm); [discriminate|]. cbn [fst] in Mm. set (l' := filter (fun q => if Rlt_dec (fst q) A then true else false) l).
    assert (Il : forall q, In q l' <-> In q l /\ fst q < A). { intros q. unfold l'. rewrite filter_In. destruct (Rlt_dec (fst q) A); intuition; discriminate. }
    assert (Top : forall q, In q l -> ~ fst q < A -> fst q = A /\ snd q = B).
    { intros q Hq Nq. pose proof (Mm q Hq). split; [lra|]. pose proof (H q (A, B) Hq Im) as H1. pose proof (H (A, B) q Im Hq) as H2. cbn [fst snd] in *. destruct (Rtotal_order (snd q) B) as [C|[C|C]]; [|exact C|]; exfalso; [apply H1 in C|apply H2 in C]; lra. }
    destruct (IH l') as (f & Hf & Ef).
    { assert (Q : (length l' < length l)%nat).
      { unfold l'. clear - Im. induction l as [|x l IHl]; [destruct Im|]. cbn [filter length]. destruct Im as [->|Im].
        - cbn [fst]. destruct (Rlt_dec A A); [lra|]. pose proof (filter_shorter _ (fun q : R * R => if Rlt_dec (fst q) A then true else false) l). lia.
        - specialize (IHl Im). destruct (Rlt_dec (fst x) A); cbn [length]; lia. }
      lia. }
    { intros q r Hq Hr. apply Il in Hq. apply Il in Hr. apply H; tauto. }
    destruct l' as [|q0 l1] eqn:El.
    + exists (fun x => x - A + B). split; [intros x y; lra|]. intros q Hq. destruct (Rlt_dec (fst q) A) as [C|C]; [destruct (proj2 (Il q)); auto|]. destruct (Top q Hq C) as [-> ->]. ring.
    + destruct (pair_max_exists (q0 :: l1)) as ([a b] & Ia & Ma); [discriminate|]. cbn [fst] in Ma. pose proof (Ef _ Ia) as Efa. cbn [fst snd] in Efa. apply Il in Ia. destruct Ia as [Ia LaA]. cbn [fst] in LaA.
      assert (LbB : b < B) by (apply (H (a, b) (A, B) Ia Im); exact LaA). assert (Sl : 0 < (B - b) / (A - a)) by (apply Rdiv_lt_0_compat; lra).
      exists (fun x => if Rle_dec x a then f x else b + (x - a) * ((B - b) / (A - a))). split.
      * intros x y Hxy. destruct (Rle_dec x a) as [X|X], (Rle_dec y a) as [Y|Y].
        -- apply Hf. exact Hxy.
        -- apply Rle_lt_trans with b; [rewrite <- Efa; apply increasing_le; auto|]. pose proof (Rmult_lt_0_compat (y - a) _ ltac:(lra) Sl). lra.
        -- lra.
        -- pose proof (Rmult_lt_compat_r _ (x - a) (y - a) Sl ltac:(lra)). lra.
      * intros q Hq. destruct (Rlt_dec (fst q) A) as [C|C].
        -- assert (Q : In q (q0 :: l1)) by (apply Il; auto). destruct (Rle_dec (fst q) a) as [X|X]; [apply Ef; exact Q|]. specialize (Ma q Q). lra.
        -- destruct (Top q Hq C) as [E1 E2]. rewrite E1, E2. destruct (Rle_dec A a) as [X|X]; [lra|]. field. lra.
Qed.
(** the distances of two items are in the same order *)
Definition same_order (n : nat) (D D' : nat -> nat -> R) : Prop :=
  forall i j k l, (i < n)%nat -> (j < n)%nat -> (k < n)%nat -> (l < n)%nat -> i <> j -> k <> l -> D i j < D k l <-> D' i j < D' k l.
Lemma same_order_map : forall n D D', same_order n D D' -> exists f, increasing f /\ forall i j, (i < n)%nat -> (j < n)%nat -> i <> j -> D' i j = f (D i j).
Proof.
  intros n D D' H. set (ps := filter (fun q => negb (Nat.eqb (fst q) (snd q))) (list_prod (seq 0 n) (seq 0 n))).
  assert (Ip : forall q, In q ps <-> (fst q < n)%nat /\ (snd q < n)%nat /\ fst q <> snd q).
  { intros [i j]. unfold ps. rewrite filter_In, in_prod_iff, !in_seq. cbn [fst snd]. rewrite negb_true_iff, Nat.eqb_neq. intuition lia. }
  destruct (interpolate _ (map (fun q => (D (fst q) (snd q), D' (fst q) (snd q))) ps) (le_n _)) as (f & Hf & Ef).
  - intros q r Hq Hr. apply in_map_iff in Hq. apply in_map_iff in Hr. destruct Hq as (a & <- & Ha), Hr as (b & <- & Hb). apply Ip in Ha. apply Ip in Hb. cbn [fst snd]. apply H; tauto.
  - exists f. split; [exact Hf|]. intros i j Hi Hj N. symmetry. apply (Ef (D i j, D' i j)). apply in_map_iff. exists (i, j). split; [reflexivity|]. apply Ip. auto.
Qed.
(** Single and complete linkage: only the order of the distances matters *)
Theorem C113_ranks : forall dist dist' n D D' s oo F, s = "single"%string \/ s = "complete"%string -> distance_matrix dist n D -> distance_matrix dist' n D' -> same_order n D D' ->
  possible_clusters dist s oo F <-> possible_clusters dist' s oo F.
Proof.
  assert (Half : forall dist dist' n D D' s oo F, s = "single"%string \/ s = "complete"%string -> distance_matrix dist n D -> distance_matrix dist' n D' -> same_order n D D' -> possible_clusters dist s oo F -> possible_clusters dist' s oo F).
  { intros dist dist' n D D' s oo F Hs Hd Hd' Ho. destruct (same_order_map n D D' Ho) as (f & Hf & Ef). assert (M : exists m, method_of s = Some m /\ (m = Single \/ m = Complete)) by (destruct Hs as [->| ->]; eexists; (split; [reflexivity|auto])).
    destruct M as (m & Em & Hm). apply (transformed_same dist dist' n D D' s oo m f F); auto. { destruct Hm as [->| ->]; exact I. } apply commutes_extreme; auto. }
  intros dist dist' n D D' s oo F Hs Hd Hd' Ho. split; [now apply (Half dist dist' n D D')|]. apply (Half dist' dist n D' D); auto. intros i j k l H1 H2 H3 H4 H5 H6. symmetry. apply Ho; assumption.
Qed.
Print Assumptions C113_ranks.

(** So for single and complete linkage the transformations abs_angular and squared_angular are one and the same *)
Theorem C113_abs_squared : forall X a cm s oo, table X a -> correlation_method cm -> s = "single"%string \/ s = "complete"%string ->
  (forall i j, (i < ncol a)%nat -> (j < ncol a)%nat -> related a i j) ->
  exists d d', hc_init (list row) spearman_matrix (Some X) None None cm "abs_angular" s oo = Ok (mkHC d s oo None) /\
    hc_init (list row) spearman_matrix (Some X) None None cm "squared_angular" s oo = Ok (mkHC d' s oo None) /\
    forall F, possible_clusters d s oo F <-> possible_clusters d' s oo F.
Proof.
  intros X a cm s oo HX Hc Hs HR. assert (M : exists m, method_of s = Some m /\ monotone_method m) by (destruct Hs as [->| ->]; eexists; (split; [reflexivity|exact I])). destruct M as (m & Em & Hm).
  destruct (C109_clusters greedy_linkage X a cm "abs_angular" s oo m C106_linkage_exists HX Hc) as (d & D & E & Hd & HD & _); auto. { right. now left. }
  destruct (C109_clusters greedy_linkage X a cm "squared_angular" s oo m C106_linkage_exists HX Hc) as (d' & D' & E' & Hd' & HD' & _); auto. { right. now right. }
  exists d, d'. split; [exact E|]. split; [exact E'|]. intros F. apply (C113_ranks d d' (ncol a) D D' s oo F Hs Hd Hd').
  assert (B : forall i j, (i < ncol a)%nat -> (j < ncol a)%nat -> -1 <= correlation cm (col a i) (col a j) <= 1).
  { intros i j Hi Hj. destruct (HR i j Hi Hj) as [V1 V2]. unfold correlation. cbv zeta. destruct (String.eqb cm "pearson-correlation"); apply pearson_bounds; rewrite ?len_ranks, ?map_length; auto; apply varies_ranks; assumption. }
  intros i j k l Hi Hj Hk Hl _ _. rewrite !HD, !HD' by auto. pose proof (B i j Hi Hj) as B1. pose proof (B k l Hk Hl) as B2. generalize dependent (correlation cm (col a i) (col a j)). intros r B1. generalize dependent (correlation cm (col a k) (col a l)). intros t B2.
  cbn [formula String.eqb Ascii.eqb Bool.eqb]. unfold formula. cbn [String.eqb Ascii.eqb Bool.eqb]. unfold abs_angular, squared_angular. 
  assert (R1 : 0 <= Rabs r <= 1) by (split; [apply Rabs_pos|apply Rabs_le; lra]). assert (T1 : 0 <= Rabs t <= 1) by (split; [apply Rabs_pos|apply Rabs_le; lra]).
  rewrite <- (pow2_abs r), <- (pow2_abs t). generalize dependent (Rabs r). intros x X1. generalize dependent (Rabs t). intros y Y1.
  split; intros H; apply sqrt_lt_0_alt in H; apply sqrt_lt_1_alt; split; nra.
Qed.
Print Assumptions C113_abs_squared.

(** ** The order of the items *)
(** Item i of the one matrix is item p i of the other: the same items are together. *)
Theorem C113_order : forall dist dist' n D D' p s oo m F, distance_matrix dist n D -> distance_matrix dist' n D' -> method_of s = Some m -> monotone_method m ->
  (forall i, (i < n)%nat -> (p i < n)%nat) -> (forall i j, (i < n)%nat -> (j < n)%nat -> p i = p j -> i = j) -> (forall i j, (i < n)%nat -> (j < n)%nat -> D' (p i) (p j) = D i j) ->
  possible_clusters dist s oo F -> exists F', possible_clusters dist' s oo F' /\
    forall k, exists g g', F k = Ok (labels_of g) /\ F' k = Ok (labels_of g') /\ length g = n /\ length g' = n /\ forall i j, (i < n)%nat -> (j < n)%nat -> same_group g i j <-> same_group g' (p i) (p j).
Proof.
  intros dist dist' n D D' p s oo m F Hd Hd' Hs Hm Hp Pinj HDD HF. destruct (transformed dist dist' n D D' s oo m (fun x => 1 * x) p F Hd Hd' Hs Hm) as (F' & HF' & H); auto.
  - intros x y H. lra.
  - apply commutes_scale. lra.
  - intros i j Hi Hj _. rewrite HDD by auto. ring.
  - exists F'. split; [exact HF'|]. intros k. destruct (H k) as (g & g' & E & E' & L & L' & _ & _ & Hg). exists g, g'. auto.
Qed.
Print Assumptions C113_order.

(** ** Single linkage: connected components *)
(** For a height h, connect the items that are at most h apart.  If this makes exactly k groups, get_clusters(k) returns these groups, whatever scipy chooses among closest pairs. *)
Theorem C113_components : forall lk dist n D oo h k (comp : nat -> nat), follows_scipy lk -> distance_matrix dist n D ->
  (forall i, (i < n)%nat -> (comp i < k)%nat) -> (forall c, (c < k)%nat -> exists i, (i < n)%nat /\ comp i = c) ->
  (forall i j, (i < n)%nat -> (j < n)%nat -> comp i = comp j <-> chain D h (fun l => (l < n)%nat) i j) ->
  exists g, fst (hc_get_clusters (scipy_with lk) (mkHC dist "single" oo None) (Z.of_nat k)) = Ok (labels_of g) /\
    forall i j, (i < n)%nat -> (j < n)%nat -> same_group g i j <-> comp i = comp j.
Proof.
  intros lk dist n D oo h k comp HL Hd Hr Hsurj Hcomp. destruct (C107_single lk dist n D oo HL Hd (Z.of_nat k)) as (g & h' & Eg & H0 & Hg). exists g. split; [exact Eg|].
  destruct (C106_clusters lk dist n D "single" oo Single HL Hd eq_refl I) as (groups & G & _). destruct (G (Z.of_nat k)) as (Eg' & Lg & Ng & _). rewrite Eg in Eg'. injection Eg' as Eg'. apply labels_inj in Eg'. subst g.
  assert (Kn : (1 <= k <= n)%nat).
  { assert (1 <= n)%nat by (pose proof (proj1 Hd); lia). pose proof (Hr 0%nat ltac:(lia)). split; [lia|].
    destruct (finite_choice k (fun c i => (i < n)%nat /\ comp i = c) Hsurj) as [r Hrr].
    assert (ND : NoDup (map r (seq 0 k))). { apply nodup_map_in; [|apply seq_NoDup]. intros a b Ha Hb E. apply in_seq in Ha. apply in_seq in Hb. destruct (Hrr a) as [_ <-]; [lia|]. destruct (Hrr b) as [_ <-]; [lia|]. now rewrite E. }
    apply NoDup_incl_length with (l' := seq 0 n) in ND; [rewrite map_length, !seq_length in ND; exact ND|]. intros x Hx. apply in_map_iff in Hx. destruct Hx as (c & <- & Hc). apply in_seq in Hc. apply in_seq. destruct (Hrr c); lia. }
  assert (Ec : clamp n (Z.of_nat k) = k) by (unfold clamp; rewrite Nat2Z.id; lia). rewrite Ec in Ng. set (g := groups (Z.of_nat k)) in *.
  assert (Gr : forall i, (i < n)%nat -> (nth i g 0 < k)%nat) by (intros i Hi; apply Ng; apply nth_In; lia).
  assert (Gs : forall c, (c < k)%nat -> exists i, (i < n)%nat /\ nth i g 0%nat = c) by (intros c Hc; apply Ng in Hc; apply (In_nth _ _ 0%nat) in Hc; destruct Hc as (i & Hi & E); exists i; rewrite <- Lg; auto).
  assert (Wk : forall h1 h2 (P Q : nat -> Prop) i j, h1 <= h2 -> (forall x, P x -> Q x) -> chain D h1 P i j -> chain D h2 Q i j).
  { intros h1 h2 P Q i j Hh HPQ Hch. induction Hch; [apply chain_refl; auto|]. eapply chain_step; [auto| |eassumption]. lra. }
  destruct (Rle_dec h' h) as [L|L].
  - assert (F : forall i j, (i < n)%nat -> (j < n)%nat -> nth i g 0%nat = nth j g 0%nat -> comp i = comp j).
    { intros i j Hi Hj E. apply Hcomp; auto. apply (Wk h' h (fun l => (l < n)%nat /\ same_group g i l) (fun l => (l < n)%nat)); [exact L|intros x Hx; apply Hx|]. apply Hg; auto. }
    intros i j Hi Hj. split; [apply F; auto|]. apply (same_count n k (fun i => nth i g 0%nat) comp); auto.
  - assert (F : forall i j, (i < n)%nat -> (j < n)%nat -> comp i = comp j -> nth i g 0%nat = nth j g 0%nat).
    { intros i j Hi Hj E. apply Hcomp in E; auto. clear - E L Hg Hj. induction E as [i|i c j Hi Hs Hch IH]; [reflexivity|]. rewrite <- IH by exact Hj.
      assert (Hc : (c < n)%nat) by (destruct Hch; assumption). destruct (Nat.eq_dec (nth i g 0%nat) (nth c g 0%nat)) as [E|N]; [exact E|]. exfalso. pose proof (proj2 (Hg i c Hi Hc) N). lra. }
    intros i j Hi Hj. split; [|apply F; auto]. intros E. apply (same_count n k comp (fun i => nth i g 0%nat)); auto.
Qed.
Print Assumptions C113_components.

(** ** Examples *)
Definition doubled : arr2 := mkArr 4 4 (fun i j => Fin (2 * two_pairs i j)).
Lemma doubled_distances : distance_matrix (OArr2 doubled) 4 (fun i j => 2 * two_pairs i j).
Proof.
  destruct two_pairs_distances as (H1 & _ & H2). split; [exact H1|]. split; [exists doubled; split; [now left|]; repeat split|]. intros i j Hi Hj. destruct (H2 i j Hi Hj) as (A & B & C). rewrite <- B, C. repeat split; lra.
Qed.
Example C113_example : forall s m oo F, method_of s = Some m -> monotone_method m -> possible_clusters (OArr2 two_pairs_matrix) s oo F <-> possible_clusters (OArr2 doubled) s oo F.
Proof. intros s m oo F Hs Hm. apply (C113_scale _ _ 4 two_pairs 2 s oo m F); [lra|exact two_pairs_distances|exact doubled_distances|exact Hs|exact Hm]. Qed.
(** with h = 1 the two pairs are connected, and there are two groups *)
Example C113_example_components : forall lk oo, follows_scipy lk -> exists g, fst (hc_get_clusters (scipy_with lk) (mkHC (OArr2 two_pairs_matrix) "single" oo None) 2) = Ok (labels_of g) /\
  forall i j, (i < 4)%nat -> (j < 4)%nat -> same_group g i j <-> Nat.div2 i = Nat.div2 j.
Proof.
  intros lk oo HL. apply (C113_components lk _ 4 two_pairs oo 1 2 Nat.div2 HL two_pairs_distances).
  - intros i Hi. do 4 (destruct i as [|i]; [cbn; lia|]). lia.
  - intros c Hc. destruct c as [|[|c]]; [exists 0%nat|exists 2%nat|lia]; split; auto; lia.
  - intros i j Hi Hj. split.
    + intros E. apply chain_step with j; [exact Hi| |apply chain_refl; exact Hj]. unfold two_pairs. rewrite E, Nat.eqb_refl. destruct (Nat.eqb i j); lra.
    + intros Hch. clear - Hch. induction Hch as [i Hi|i c j Hi Hs Hch IH]; [reflexivity|]. rewrite <- IH. unfold two_pairs in Hs. destruct (Nat.eqb_spec i c) as [->|_]; [reflexivity|]. destruct (Nat.eqb_spec (Nat.div2 i) (Nat.div2 c)); [assumption|lra].
Qed.
