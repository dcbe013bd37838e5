(** C93: transformers, method names and missing observations in get_corr_distance_matrix; C94: rank correlation. *)
From Coq Require Import Reals Lra Psatz String List Arith Bool Lia FunctionalExtensionality.
From Verif Require Import Base Num Sums Sim_Model Dist_Model Dist_Spec Dist_Proofs Dist_Props.
Import ListNotations.
Open Scope R_scope.

(** ** C93 *)
(** data a caller may pass: a two-dimensional array or a DataFrame with at least two columns *)
Definition table (X : obj) (a : arr2) : Prop := (X = OArr2 a \/ exists names, X = OFrame names a) /\ (2 <= ncol a)%nat.
(** the same container with other contents *)
Definition refill (X : obj) (c : arr2) : obj := match X with OFrame names _ => OFrame names c | _ => OArr2 c end.
(** the transformer receives the square matrix of column correlations, in the container of the data, and what it returns is
    converted; without transformer the correlations are converted themselves; an exception of the transformer is passed on *)
Theorem C93_transformer : forall sp X a cm, table X a -> cm = "pearson"%string \/ cm = "spearman"%string ->
  exists c, (cm = "pearson"%string -> nrow c = ncol a /\ ncol c = ncol a /\ forall i j, at2 c i j = pandas_pearson (col a i) (col a j))
  /\ (cm = "spearman"%string -> c = sp a)
  /\ forall m, get_corr_distance_matrix sp X cm m None = corr_to_dist (refill X c) m
     /\ (forall f y, f (refill X c) = Ok y -> get_corr_distance_matrix sp X cm m (Some f) = corr_to_dist y m)
     /\ (forall f e, f (refill X c) = Raise e -> get_corr_distance_matrix sp X cm m (Some f) = Raise e).
Proof.
  intros sp X a cm [HX H2] Hc. exists (if String.eqb cm "pearson" then pearson_matrix a else sp a).
  split; [intros ->; cbn [String.eqb Ascii.eqb Bool.eqb pearson_matrix nrow ncol at2]; auto|]. split; [intros ->; reflexivity|].
  intros m. assert (G : forall t, get_corr_distance_matrix sp X cm m t = (c <- match t with None => Ok (refill X (if String.eqb cm "pearson" then pearson_matrix a else sp a)) | Some f => f (refill X (if String.eqb cm "pearson" then pearson_matrix a else sp a)) end ;; corr_to_dist c m)).
  { intros t. unfold get_corr_distance_matrix. assert (E : existsb (String.eqb cm) ["pearson"; "spearman"]%string = true) by (destruct Hc as [-> | ->]; reflexivity). rewrite E. cbn [negb].
    unfold calculate_correlation. assert (C : check_2d X = Ok tt) by (destruct HX as [->|(names & ->)]; unfold check_2d; destruct (Nat.ltb_spec (ncol a) 2); try lia; reflexivity).
    rewrite C. cbn [bind]. destruct HX as [->|(names & ->)]; cbn [refill bind]; destruct Hc as [-> | ->]; reflexivity. }
  rewrite !G. split; [reflexivity|]. split; intros f y E; rewrite G, E; reflexivity.
Qed.
(** so the identity as transformer changes nothing *)
Theorem C93_identity_transformer : forall sp X cm m, get_corr_distance_matrix sp X cm m (Some (fun c => Ok c)) = get_corr_distance_matrix sp X cm m None.
Proof. intros. reflexivity. Qed.
(** an unknown correlation method is rejected before anything else; then data that are no table; the name of the conversion is looked at
    last, after the transformer has been called *)
Theorem C93_rejections : forall sp X cm m t,
  (cm <> "pearson"%string -> cm <> "spearman"%string -> get_corr_distance_matrix sp X cm m t = Raise AssertionError)
  /\ (cm = "pearson"%string \/ cm = "spearman"%string -> (~ exists a, table X a) -> get_corr_distance_matrix sp X cm m t = Raise ValueError)
  /\ (forall a, cm = "pearson"%string -> table X a -> ~ known_method m ->
        get_corr_distance_matrix sp X cm m None = Raise AssertionError
        /\ (forall f y b, (forall c, f c = Ok y) -> table y b -> get_corr_distance_matrix sp X cm m (Some f) = Raise AssertionError)
        /\ (forall f y, (forall c, f c = Ok y) -> (~ exists b, table y b) -> get_corr_distance_matrix sp X cm m (Some f) = Raise ValueError)
        /\ (forall f e, (forall c, f c = Raise e) -> get_corr_distance_matrix sp X cm m (Some f) = Raise e)).
Proof.
  intros sp X cm m t. assert (TB : forall y b, table y b -> exists b, (y = OArr2 b \/ exists names, y = OFrame names b) /\ (2 <= ncol b)%nat) by (intros y b H; exists b; exact H).
  split; [|split].
  - intros H1 H2. unfold get_corr_distance_matrix. cbn [existsb]. rewrite (proj2 (String.eqb_neq _ _) H1), (proj2 (String.eqb_neq _ _) H2). reflexivity.
  - intros Hc HX. unfold get_corr_distance_matrix. assert (E : existsb (String.eqb cm) ["pearson"; "spearman"]%string = true) by (destruct Hc as [-> | ->]; reflexivity). rewrite E. cbn [negb]. unfold calculate_correlation.
    assert (C : check_2d X = Raise ValueError).
    { unfold check_2d. destruct X as [c|l|a|n|l|names a|]; try reflexivity; destruct (Nat.ltb_spec (ncol a) 2); try reflexivity; exfalso; apply HX; exists a; (split; [|auto]); [left; auto|right; exists names; auto]. }
    rewrite C. reflexivity.
  - intros a -> HX Hm. destruct (C93_transformer sp X a "pearson" HX (or_introl eq_refl)) as (c & Hc & _ & H). destruct (H m) as (G0 & G1 & G2). destruct (Hc eq_refl) as (_ & Hn & _). split; [|split; [|split]].
    + rewrite G0. apply (C38_corr_to_dist (refill X c) m); auto. exists c. destruct HX as [[->|(names & ->)] H2]; cbn [refill]; (split; [|lia]); [left; auto|right; exists names; auto].
    + intros f y b Hf Hb. rewrite (G1 f y) by auto. apply (C38_corr_to_dist y m); auto. exact (TB y b Hb).
    + intros f y Hf Hb. rewrite (G1 f y) by auto. apply (C38_corr_to_dist y m); auto.
    + intros f e Hf. apply G2. auto.
Qed.

(** *** missing observations *)
(** the pairs of numbers of two columns, in the rows where both are present *)
Definition both (x y : list num) : list (R * R) := flat_map (fun p => match p with (Fin a, Fin b) => [(a, b)] | _ => [] end) (combine x y).
Lemma complete_both : forall x y, complete x y = map (fun p => (Fin (fst p), Fin (snd p))) (both x y).
Proof.
  intros x y. unfold complete, both. induction (combine x y) as [|[p q] l IH]; [reflexivity|]. cbn [filter flat_map fst snd]. rewrite map_app.
  destruct p, q; cbn [is_fin andb map app fst snd]; rewrite IH; reflexivity.
Qed.
Lemma complete_parts : forall x y, let u := map fst (both x y) in let v := map snd (both x y) in
  length u = length v /\ complete x y = combine (map Fin u) (map Fin v) /\ length (complete x y) = length u.
Proof.
  intros x y. cbv zeta. rewrite complete_both, !map_length. split; [reflexivity|]. split; [|reflexivity]. rewrite combine_map2. induction (both x y) as [|[p q] l IH]; [reflexivity|]. cbn [map combine fst snd]. f_equal. exact IH.
Qed.
Lemma not_varies_nil : ~ varies []. Proof. intros (a & b & H & _). exact H. Qed.
Lemma pearson_pairs : forall x y, let u := map fst (both x y) in let v := map snd (both x y) in
  (varies u /\ varies v -> pandas_pearson x y = Fin (pearson u v)) /\ (~ varies u \/ ~ varies v -> pandas_pearson x y = NaN).
Proof.
  intros x y. destruct (complete_parts x y) as (L & E & N). cbv zeta. set (u := map fst (both x y)) in *. set (v := map snd (both x y)) in *. destruct (Nat.lt_ge_cases (length u) 1) as [H|H].
  - assert (u = []) by (destruct u; [auto|cbn in H; lia]). split; [intros [V _]; exfalso; rewrite H0 in V; apply (not_varies_nil V)|]. intros _. unfold pandas_pearson. cbv zeta. rewrite N. destruct (Nat.ltb_spec (length u) 1); [reflexivity|lia].
  - assert (Q : pandas_pearson x y = pandas_pearson (map Fin u) (map Fin v)) by (unfold pandas_pearson; rewrite E, complete_fin; reflexivity). rewrite Q. apply pandas_pearson_real; auto.
Qed.
Lemma both_swap : forall x y, both y x = map (fun p => (snd p, fst p)) (both x y).
Proof.
  intros x. unfold both. induction x as [|a x IH]; intros [|b y]; try reflexivity. cbn [combine flat_map]. rewrite map_app, <- IH. destruct a, b; reflexivity.
Qed.
Lemma both_same : forall x, both x x = map (fun r => (r, r)) (map fst (both x x)).
Proof. intros x. unfold both. induction x as [|a x IH]; [reflexivity|]. cbn [combine flat_map]. rewrite !map_app, <- IH. destruct a; reflexivity. Qed.
Lemma varies_dec : forall u, varies u \/ ~ varies u.
Proof. intros u. apply Classical_Prop.classic. Qed.

(** a correlation coefficient g: undefined or in [-1, 1], symmetric, 1 on the diagonal *)
Definition coefficient (g : list num -> list num -> num) : Prop :=
  (forall x y, g x y = NaN \/ exists r, g x y = Fin r /\ -1 <= r <= 1) /\ (forall x y, g y x = g x y) /\ (forall x, g x x = NaN \/ g x x = Fin 1).
Lemma coefficient_from : forall g (h : list R -> list R),
  (forall x y, let u := map fst (both x y) in let v := map snd (both x y) in
     (varies u /\ varies v -> g x y = Fin (pearson (h u) (h v)) /\ varies (h u) /\ varies (h v)) /\ (~ varies u \/ ~ varies v -> g x y = NaN)) ->
  (forall u, length (h u) = length u) -> coefficient g.
Proof.
  intros g h H L. split; [|split].
  - intros x y. destruct (H x y) as [H1 H2]. destruct (varies_dec (map fst (both x y))) as [A|A]; [|left; apply H2; auto]. destruct (varies_dec (map snd (both x y))) as [B|B]; [|left; apply H2; auto].
    right. destruct (H1 (conj A B)) as (E & V1 & V2). eexists. split; [exact E|]. apply pearson_bounds; auto. rewrite !L, !map_length. reflexivity.
  - intros x y. destruct (H x y) as [H1 H2]. destruct (H y x) as [H3 H4]. rewrite both_swap in H3, H4. rewrite !map_map in H3, H4. cbn [fst snd] in H3, H4.
    change (map (fun x0 : R * R => snd x0) (both x y)) with (map snd (both x y)) in *. change (map (fun x0 : R * R => fst x0) (both x y)) with (map fst (both x y)) in *.
    destruct (varies_dec (map fst (both x y))) as [A|A]; [destruct (varies_dec (map snd (both x y))) as [B|B]|].
    + destruct (H1 (conj A B)) as (-> & V1 & V2). destruct (H3 (conj B A)) as (-> & _). f_equal. apply pearson_sym. rewrite !L, !map_length. reflexivity.
    + rewrite H2, H4 by auto. reflexivity.
    + rewrite H2, H4 by auto. reflexivity.
  - intros x. destruct (H x x) as [H1 H2]. assert (E : map snd (both x x) = map fst (both x x)) by (rewrite both_same at 1; rewrite map_map; cbn [snd]; apply map_id). rewrite E in *.
    destruct (varies_dec (map fst (both x x))) as [A|A]; [|left; apply H2; auto]. right. destruct (H1 (conj A A)) as (-> & V & _). rewrite pearson_self by auto. reflexivity.
Qed.
(** conversion of a matrix of coefficients *)
Lemma coefficient_dist : forall g a m names, coefficient g -> known_method m -> (2 <= ncol a)%nat ->
  let c := mkArr (ncol a) (ncol a) (fun i j => g (col a i) (col a j)) in
  (exists d, corr_to_dist (OFrame names c) m = Ok (OFrame names d) /\ nrow d = ncol a /\ ncol d = ncol a
     /\ forall i j, (forall r, g (col a i) (col a j) = Fin r -> at2 d i j = Fin (formula m r)) /\ (g (col a i) (col a j) = NaN -> at2 d i j = NaN))
  /\ ((forall i j, (i < ncol a)%nat -> (j < ncol a)%nat -> g (col a i) (col a j) <> NaN) ->
       exists d, corr_to_dist (OArr2 c) m = Ok (OArr2 d) /\ nrow d = ncol a /\ ncol d = ncol a
         /\ forall i j, (i < ncol a)%nat -> (j < ncol a)%nat -> forall r, g (col a i) (col a j) = Fin r -> at2 d i j = Fin (formula m r))
  /\ ((exists i j, (i < ncol a)%nat /\ (j < ncol a)%nat /\ g (col a i) (col a j) = NaN) -> corr_to_dist (OArr2 c) m = Raise AssertionError).
Proof.
  intros g a m names (G1 & G2 & G3) Hm H2 c.
  assert (T1 : exists b, (OArr2 c = OArr2 b \/ exists n, OArr2 c = OFrame n b) /\ (2 <= ncol b)%nat) by (exists c; split; [left; auto|exact H2]).
  assert (T2 : exists b, (OFrame names c = OArr2 b \/ exists n, OFrame names c = OFrame n b) /\ (2 <= ncol b)%nat) by (exists c; split; [right; exists names; auto|exact H2]).
  rewrite (proj1 (C38_corr_to_dist (OArr2 c) m) T1 Hm), (proj1 (C38_corr_to_dist (OFrame names c) m) T2 Hm).
  assert (B : forall i j r, g (col a i) (col a j) = Fin r -> clamp r = r).
  { intros i j r E. apply clamp_id. destruct (G1 (col a i) (col a j)) as [X|(r' & X & Y)]; rewrite E in X; [discriminate|]. injection X as ->. auto. }
  split; [|split].
  - destruct (C38_frames_not_checked m names c Hm) as (d & E & D1 & D2 & H). exists d. split; [auto|]. split; [auto|]. split; [auto|]. intros i j. destruct (H i j) as [Ha Hb]. split; [|exact Hb].
    intros r Er. rewrite (Ha r Er), (B i j r Er). reflexivity.
  - intros HN. assert (Hc : correlation_like c).
    { split; [reflexivity|]. cbn [c nrow ncol at2]. split.
      - intros i j Hi Hj. rewrite (G2 (col a i) (col a j)). destruct (G1 (col a i) (col a j)) as [X|(r & X & Y)]; [exfalso; apply (HN i j); auto|]. rewrite X. left. exists r, r. split; [auto|]. split; [auto|].
        unfold Rminus. rewrite Rplus_opp_r, Rabs_R0. pose proof (Rabs_pos r). lra.
      - intros i Hi. destruct (G3 (col a i)) as [X|X]; [exfalso; apply (HN i i); auto|auto]. }
    destruct (proj1 (proj1 (C38_accepts_exactly m _ Hm)) Hc) as (r & Er). destruct (C38_matrix m _ r Hm Er) as (d & -> & D1 & D2 & D3 & D4). exists d. split; [auto|]. split; [auto|]. split; [auto|].
    intros i j Hi Hj r Ei. destruct (Nat.eq_dec i j) as [<-|Hij].
    + rewrite D3 by auto. destruct (G3 (col a i)) as [X|X]; rewrite Ei in X; [discriminate|]. injection X as ->. rewrite formula_one by auto. reflexivity.
    + destruct (D4 i j Hi Hj Hij) as (v & Ev & _ & Hv & _). rewrite Ev, (Hv r Ei), (B i j r Ei). reflexivity.
  - intros (i & j & Hi & Hj & E). apply C38_accepts_exactly; [auto|]. intros (_ & Hn & _). apply (near_not_nan _ _ (Hn i j Hi Hj)). exact E.
Qed.
Lemma pearson_coefficient : coefficient pandas_pearson.
Proof.
  apply (coefficient_from _ (fun u => u)); [|auto]. intros x y. destruct (pearson_pairs x y) as [H1 H2]. cbv zeta. split; [intros [A B]; auto|exact H2].
Qed.
(** Pearson distances with missing observations: the (i, j) entry uses the rows where both columns are present.  If these rows do not vary in
    both columns (in particular if there are fewer than two) the entry is NaN for a DataFrame, and an array as data is rejected. *)
Theorem C93_missing_observations : forall sp a names m, known_method m -> (2 <= ncol a)%nat ->
  let u i j := map fst (both (col a i) (col a j)) in let v i j := map snd (both (col a i) (col a j)) in
  let defined i j := varies (u i j) /\ varies (v i j) in
  (exists d, get_corr_distance_matrix sp (OFrame names a) "pearson" m None = Ok (OFrame names d) /\ nrow d = ncol a /\ ncol d = ncol a
     /\ forall i j, (defined i j -> at2 d i j = Fin (formula m (pearson (u i j) (v i j)))) /\ (~ defined i j -> at2 d i j = NaN))
  /\ ((forall i j, (i < ncol a)%nat -> (j < ncol a)%nat -> defined i j) ->
       exists d, get_corr_distance_matrix sp (OArr2 a) "pearson" m None = Ok (OArr2 d) /\ nrow d = ncol a /\ ncol d = ncol a
         /\ forall i j, (i < ncol a)%nat -> (j < ncol a)%nat -> at2 d i j = Fin (formula m (pearson (u i j) (v i j))))
  /\ ((exists i j, (i < ncol a)%nat /\ (j < ncol a)%nat /\ ~ defined i j) -> get_corr_distance_matrix sp (OArr2 a) "pearson" m None = Raise AssertionError).
Proof.
  intros sp a names m Hm H2 u v defined.
  assert (D : forall i j, (defined i j -> pandas_pearson (col a i) (col a j) = Fin (pearson (u i j) (v i j))) /\ (~ defined i j -> pandas_pearson (col a i) (col a j) = NaN)).
  { intros i j. destruct (pearson_pairs (col a i) (col a j)) as [P1 P2]. split; [exact P1|]. intros N. apply P2. destruct (varies_dec (u i j)) as [A|A]; [right; intros B; apply N; split; auto|left; auto]. }
  assert (GF : get_corr_distance_matrix sp (OFrame names a) "pearson" m None = corr_to_dist (OFrame names (pearson_matrix a)) m /\ get_corr_distance_matrix sp (OArr2 a) "pearson" m None = corr_to_dist (OArr2 (pearson_matrix a)) m).
  { unfold get_corr_distance_matrix. cbn [existsb String.eqb Ascii.eqb Bool.eqb orb negb]. unfold calculate_correlation, check_2d. destruct (Nat.ltb_spec (ncol a) 2); [lia|]. split; reflexivity. }
  destruct GF as [-> ->]. destruct (coefficient_dist pandas_pearson a m names pearson_coefficient Hm H2) as ((d & E & N1 & N2 & K1) & K2 & K3). split; [|split].
  - exists d. split; [exact E|]. split; [auto|]. split; [auto|]. intros i j. destruct (D i j) as [D1 D2]. destruct (K1 i j) as [K K']. split; [intros X; apply K; auto|intros X; apply K'; auto].
  - intros HD. destruct K2 as (d' & E' & N1' & N2' & K).
    + intros i j Hi Hj. rewrite (proj1 (D i j) (HD i j Hi Hj)). discriminate.
    + exists d'. split; [exact E'|]. split; [auto|]. split; [auto|]. intros i j Hi Hj. apply K; auto. apply D. auto.
  - intros (i & j & Hi & Hj & N). apply K3. exists i, j. split; [auto|]. split; [auto|]. apply D. auto.
Qed.
(** with missing observations the distances need not satisfy the triangle inequality (C39): two columns at distance 1 that are both at distance 0
    from a third one *)
Definition gaps : arr2 := mkArr 6 3 (fun i j => nth i (nth j [[Fin 1; Fin 2; NaN; NaN; Fin 1; Fin 2]; [Fin 1; Fin 2; Fin 1; Fin 2; NaN; NaN]; [NaN; NaN; Fin 1; Fin 2; Fin 2; Fin 1]] []) NaN).
Lemma varies12 : varies [1; 2] /\ varies [2; 1].
Proof. unfold varies. split; [exists 1, 2|exists 2, 1]; cbn; repeat split; auto; lra. Qed.
Lemma pearson_12 : pearson [1; 2] [1; 2] = 1 /\ pearson [1; 2] [2; 1] = -1.
Proof.
  destruct varies12 as [V1 V2]. split; [apply pearson_self; auto|]. rewrite pearson_sym by reflexivity. replace [2; 1] with (affine (-1) 3 [1; 2]) by (unfold affine; cbn [map]; f_equal; [ring|f_equal; ring]).
  rewrite pearson_affine by (auto; lra). rewrite pearson_self by auto. destruct (Rlt_dec 0 (-1)); lra.
Qed.
Theorem C93_triangle_with_gaps_refuted : forall sp names, exists d, get_corr_distance_matrix sp (OFrame names gaps) "pearson" "angular" None = Ok (OFrame names d)
  /\ at2 d 0 1 = Fin 0 /\ at2 d 1 2 = Fin 0 /\ at2 d 0 2 = Fin 1.
Proof.
  intros sp names. destruct (C93_missing_observations sp gaps names "angular" (or_introl eq_refl) ltac:(cbn; lia)) as ((d & E & _ & _ & H) & _). exists d. split; [exact E|].
  destruct varies12 as [V1 V2]. destruct pearson_12 as [P1 P2].
  assert (F1 : formula "angular" 1 = 0) by (apply formula_one; left; reflexivity).
  assert (F2 : formula "angular" (-1) = 1) by (unfold formula, angular; cbn [String.eqb Ascii.eqb Bool.eqb]; replace ((1 - -1) / 2) with 1 by field; apply sqrt_1).
  split; [|split].
  - destruct (H 0%nat 1%nat) as [Q _]. replace (both (col gaps 0) (col gaps 1)) with [(1, 1); (2, 2)] in Q by reflexivity. cbn [map fst snd] in Q. rewrite (Q (conj V1 V1)), P1, F1. reflexivity.
  - destruct (H 1%nat 2%nat) as [Q _]. replace (both (col gaps 1) (col gaps 2)) with [(1, 1); (2, 2)] in Q by reflexivity. cbn [map fst snd] in Q. rewrite (Q (conj V1 V1)), P1, F1. reflexivity.
  - destruct (H 0%nat 2%nat) as [Q _]. replace (both (col gaps 0) (col gaps 2)) with [(1, 2); (2, 1)] in Q by reflexivity. cbn [map fst snd] in Q. rewrite (Q (conj V1 V2)), P2, F2. reflexivity.
Qed.

(** ** C94 *)
(** average rank of x among the values u: the smaller ones, and half of the equal ones *)
Definition smaller (u : list R) (x : R) : nat := length (filter (fun y => if Rlt_dec y x then true else false) u).
Definition equal_to (u : list R) (x : R) : nat := length (filter (fun y => if Req_EM_T x y then true else false) u).
Definition avg_rank (u : list R) (x : R) : R := INR (smaller u x) + (INR (equal_to u x) + 1) / 2.
Definition ranks (u : list R) : list R := map (avg_rank u) u.
Lemma rank_in_real : forall u x, rank_in (map Fin u) (Fin x) = Fin (avg_rank u x).
Proof.
  intros u x. unfold rank_in, avg_rank, smaller, equal_to. assert (F : forall f g, (forall y, f (Fin y) = g y) -> length (filter f (map Fin u)) = length (filter g u)).
  { intros f g H. induction u as [|y u IH]; [reflexivity|]. cbn [map filter]. rewrite H. destruct (g y); cbn [length]; rewrite IH; reflexivity. }
  rewrite (F _ (fun y => if Rlt_dec y x then true else false)) by (intros y; cbn [nltb]; unfold rltb; reflexivity). rewrite (F _ (fun y => if Req_EM_T x y then true else false)) by (intros y; cbn [neqb]; unfold reqb; reflexivity).
  unfold nofnat. cbn [nadd]. rewrite ndiv_fin by lra. cbn [nadd]. reflexivity.
Qed.
Lemma len_ranks : forall u, length (ranks u) = length u. Proof. intros. apply map_length. Qed.
(** indicator sums *)
Definition half (x y : R) : R := if Rlt_dec y x then 1 else if Req_EM_T x y then 1 / 2 else 0.
Lemma rank_sum : forall u x, avg_rank u x = rsum (map (half x) u) + 1 / 2.
Proof.
  intros u x. unfold avg_rank, smaller, equal_to. induction u as [|y u IH]; [cbn; lra|]. cbn [filter map].
  change (rsum (half x y :: map (half x) u)) with (half x y + rsum (map (half x) u)). unfold half at 1. destruct (Rlt_dec y x), (Req_EM_T x y); try lra; cbn [length]; rewrite ?S_INR; lra.
Qed.
Lemma ranks_mean : forall u, u <> [] -> rmean (ranks u) = (INR (length u) + 1) / 2.
Proof.
  intros u Hu. unfold rmean. rewrite len_ranks. unfold ranks. rewrite (map_ext _ _ (rank_sum u)). rewrite (rsum_plus R (fun x => rsum (map (half x) u)) (fun _ => 1 / 2)), rsum_const.
  assert (S : rsum (map (fun x => rsum (map (half x) u)) u) + rsum (map (fun x => rsum (map (half x) u)) u) = INR (length u) * INR (length u)).
  { rewrite (rsum_swap R R (fun x y => half x y) u u) at 2. rewrite <- rsum_plus. rewrite (rsum_ext _ _ (fun _ => INR (length u))); [apply rsum_const|]. intros x _. rewrite <- rsum_plus.
    rewrite (rsum_ext _ _ (fun _ => 1)); [rewrite rsum_const; ring|]. intros y _. unfold half. destruct (Rlt_dec y x), (Rlt_dec x y), (Req_EM_T x y), (Req_EM_T y x); lra. }
  assert (0 < INR (length u)) by (apply lt_0_INR; destruct u; [congruence|cbn; lia]). set (n := INR (length u)) in *. set (T := rsum (map _ u)) in *. replace T with (n * n / 2) by lra. field. lra.
Qed.
Lemma rank_lt : forall u x y, In x u -> x < y -> avg_rank u x < avg_rank u y.
Proof.
  intros u x y Hx L. rewrite !rank_sum. assert (M : forall z, half x z <= half y z) by (intros z; unfold half; destruct (Rlt_dec z x), (Rlt_dec z y), (Req_EM_T x z), (Req_EM_T y z); lra).
  assert (G : forall l, rsum (map (half x) l) <= rsum (map (half y) l)) by (intros l; apply rsum_le; auto).
  assert (Q : rsum (map (half x) u) + 1 / 2 <= rsum (map (half y) u)); [|lra].
  induction u as [|z u IH]; [destruct Hx|]. cbn [map]. change (half x z + rsum (map (half x) u) + 1 / 2 <= half y z + rsum (map (half y) u)). destruct Hx as [<-|Hx].
  - specialize (G u). unfold half at 1 3. destruct (Rlt_dec z z), (Req_EM_T z z), (Rlt_dec z y); lra.
  - specialize (IH Hx). specialize (M z). lra.
Qed.
Lemma rank_order : forall u x y, In x u -> In y u -> (avg_rank u x < avg_rank u y <-> x < y).
Proof.
  intros u x y Hx Hy. split; [|apply rank_lt; auto]. intros H. destruct (Rtotal_order x y) as [L|[->|L]]; [auto|lra|]. apply (rank_lt u) in L; auto. lra.
Qed.
Lemma varies_ranks : forall u, varies (ranks u) <-> varies u.
Proof.
  intros u. split.
  - intros (a & b & Ha & Hb & N). apply in_map_iff in Ha as (x & <- & Hx). apply in_map_iff in Hb as (y & <- & Hy). exists x, y. split; [auto|]. split; [auto|]. congruence.
  - intros (a & b & Ha & Hb & N). exists (avg_rank u a), (avg_rank u b). split; [apply in_map; auto|]. split; [apply in_map; auto|]. destruct (Rtotal_order a b) as [L|[->|L]]; [|congruence|]; apply (rank_lt u) in L; auto; lra.
Qed.
Lemma spearman_pairs : forall x y, let u := map fst (both x y) in let v := map snd (both x y) in
  (varies u /\ varies v -> pandas_spearman x y = Fin (pearson (ranks u) (ranks v)) /\ varies (ranks u) /\ varies (ranks v)) /\ (~ varies u \/ ~ varies v -> pandas_spearman x y = NaN).
Proof.
  intros x y. destruct (complete_parts x y) as (L & E & N). cbv zeta. set (u := map fst (both x y)) in *. set (v := map snd (both x y)) in *. unfold pandas_spearman. cbv zeta. rewrite N. destruct (Nat.ltb_spec (length u) 1) as [H|H].
  - assert (u = []) by (destruct u; [auto|cbn in H; lia]). split; [intros [V _]; exfalso; rewrite H0 in V; apply (not_varies_nil V)|auto].
  - rewrite E. destruct (split_combine _ _ (map Fin u) (map Fin v)) as [E1 E2]; [rewrite !map_length; auto|]. rewrite E1, E2.
    assert (RR : forall w, map (rank_in (map Fin w)) (map Fin w) = map Fin (ranks w)) by (intros w; unfold ranks; rewrite !map_map; apply map_ext; intros r; apply rank_in_real). rewrite !RR.
    assert (Hu : u <> []) by (intros X; rewrite X in H; cbn in H; lia). assert (Hv : v <> []) by (intros X; rewrite L, X in H; cbn in H; lia).
    assert (Ru : ranks u <> []) by (intros X; apply (f_equal (@length R)) in X; rewrite len_ranks in X; cbn in X; lia). assert (Rv : ranks v <> []) by (intros X; apply (f_equal (@length R)) in X; rewrite len_ranks in X; cbn in X; lia).
    assert (Mu : ndiv (nadd (nofnat (length u)) (Fin 1)) (Fin 2) = nmean (map Fin (ranks u))) by (rewrite nmean_fin by auto; rewrite ranks_mean by auto; unfold nofnat; cbn [nadd]; rewrite ndiv_fin by lra; reflexivity).
    assert (Mv : ndiv (nadd (nofnat (length u)) (Fin 1)) (Fin 2) = nmean (map Fin (ranks v))) by (rewrite nmean_fin by auto; rewrite ranks_mean by auto; rewrite L; unfold nofnat; cbn [nadd]; rewrite ndiv_fin by lra; reflexivity).
    assert (D : forall a b, (a = u \/ a = v) -> (b = u \/ b = v) -> nsum (map (fun p => nmul (nsub (fst p) (ndiv (nadd (nofnat (length u)) (Fin 1)) (Fin 2))) (nsub (snd p) (ndiv (nadd (nofnat (length u)) (Fin 1)) (Fin 2)))) (combine (map Fin (ranks a)) (map Fin (ranks b)))) = Fin (inner (ranks a) (ranks b))).
    { intros a b Ha Hb. rewrite <- dev_real by (rewrite !len_ranks; destruct Ha as [-> | ->], Hb as [-> | ->]; lia). f_equal. apply map_ext. intros p. destruct Ha as [-> | ->], Hb as [-> | ->]; rewrite <- ?Mu, <- ?Mv; reflexivity. }
    rewrite !D by auto. cbn [nmul]. set (ru := ranks u) in *. set (rv := ranks v) in *. assert (LR : length ru = length rv) by (unfold ru, rv; rewrite !len_ranks; auto).
    assert (Pu : 0 <= inner ru ru) by (rewrite inner_dot; apply dot_nonneg). assert (Pv : 0 <= inner rv rv) by (rewrite inner_dot; apply dot_nonneg). rewrite nsqrt_fin by nra. cbn [neqb]. split.
    + intros [Vx Vy]. apply varies_ranks in Vx, Vy. fold ru in Vx. fold rv in Vy. destruct (varies_pos ru Vx) as [Qx _]. destruct (varies_pos rv Vy) as [Qy _]. rewrite sqrt_mult by lra.
      assert (0 < sqrt (inner ru ru)) by (apply sqrt_lt_R0; auto). assert (0 < sqrt (inner rv rv)) by (apply sqrt_lt_R0; auto). assert (Hne : sqrt (inner ru ru) * sqrt (inner rv rv) <> 0) by nra.
      rewrite (proj2 (reqb_false _ _) Hne). rewrite ndiv_fin by auto. split; [reflexivity|auto].
    + intros Hc. replace (inner ru ru * inner rv rv) with 0; [rewrite sqrt_0, (proj2 (reqb_true 0 0) eq_refl); reflexivity|].
      destruct Hc as [Hc|Hc]; rewrite <- varies_ranks in Hc; apply not_varies_zero in Hc; unfold ru, rv; rewrite Hc; ring.
Qed.
Lemma spearman_coefficient : coefficient pandas_spearman.
Proof. apply (coefficient_from _ ranks); [apply spearman_pairs|apply len_ranks]. Qed.
(** Spearman distances: the (i, j) entry is the distance of the Pearson correlation of the average ranks, within the rows where both columns are present *)
Theorem C94_rank_correlation : forall a names m, known_method m -> (2 <= ncol a)%nat ->
  let u i j := map fst (both (col a i) (col a j)) in let v i j := map snd (both (col a i) (col a j)) in
  let defined i j := varies (u i j) /\ varies (v i j) in
  (exists d, get_corr_distance_matrix spearman_matrix (OFrame names a) "spearman" m None = Ok (OFrame names d) /\ nrow d = ncol a /\ ncol d = ncol a
     /\ forall i j, (defined i j -> at2 d i j = Fin (formula m (pearson (ranks (u i j)) (ranks (v i j))))) /\ (~ defined i j -> at2 d i j = NaN))
  /\ ((forall i j, (i < ncol a)%nat -> (j < ncol a)%nat -> defined i j) ->
       exists d, get_corr_distance_matrix spearman_matrix (OArr2 a) "spearman" m None = Ok (OArr2 d) /\ nrow d = ncol a /\ ncol d = ncol a
         /\ forall i j, (i < ncol a)%nat -> (j < ncol a)%nat -> at2 d i j = Fin (formula m (pearson (ranks (u i j)) (ranks (v i j)))))
  /\ ((exists i j, (i < ncol a)%nat /\ (j < ncol a)%nat /\ ~ defined i j) -> get_corr_distance_matrix spearman_matrix (OArr2 a) "spearman" m None = Raise AssertionError).
Proof.
  intros a names m Hm H2 u v defined.
  assert (D : forall i j, (defined i j -> pandas_spearman (col a i) (col a j) = Fin (pearson (ranks (u i j)) (ranks (v i j)))) /\ (~ defined i j -> pandas_spearman (col a i) (col a j) = NaN)).
  { intros i j. destruct (spearman_pairs (col a i) (col a j)) as [P1 P2]. split; [intros X; apply (P1 X)|]. intros N. apply P2. destruct (varies_dec (u i j)) as [A|A]; [right; intros B; apply N; split; auto|left; auto]. }
  assert (GF : get_corr_distance_matrix spearman_matrix (OFrame names a) "spearman" m None = corr_to_dist (OFrame names (spearman_matrix a)) m /\ get_corr_distance_matrix spearman_matrix (OArr2 a) "spearman" m None = corr_to_dist (OArr2 (spearman_matrix a)) m).
  { unfold get_corr_distance_matrix. cbn [existsb String.eqb Ascii.eqb Bool.eqb orb negb]. unfold calculate_correlation, check_2d. destruct (Nat.ltb_spec (ncol a) 2); [lia|]. split; reflexivity. }
  destruct GF as [-> ->]. destruct (coefficient_dist pandas_spearman a m names spearman_coefficient Hm H2) as ((d & E & N1 & N2 & K1) & K2 & K3). split; [|split].
  - exists d. split; [exact E|]. split; [auto|]. split; [auto|]. intros i j. destruct (D i j) as [D1 D2]. destruct (K1 i j) as [K K']. split; [intros X; apply K; auto|intros X; apply K'; auto].
  - intros HD. destruct K2 as (d' & E' & N1' & N2' & K).
    + intros i j Hi Hj. rewrite (proj1 (D i j) (HD i j Hi Hj)). discriminate.
    + exists d'. split; [exact E'|]. split; [auto|]. split; [auto|]. intros i j Hi Hj. apply K; auto. apply D. auto.
  - intros (i & j & Hi & Hj & N). apply K3. exists i, j. split; [auto|]. split; [auto|]. apply D. auto.
Qed.

(** *** only the order of the values matters *)
Definition lift_num (f : R -> R) (x : num) : num := match x with Fin a => Fin (f a) | y => y end.
(** every column j transformed by its own function f j *)
Definition columnwise (f : nat -> R -> R) (a : arr2) : arr2 := mkArr (nrow a) (ncol a) (fun i j => lift_num (f j) (at2 a i j)).
Lemma both_lift : forall f g x y, both (map (lift_num f) x) (map (lift_num g) y) = map (fun p => (f (fst p), g (snd p))) (both x y).
Proof.
  intros f g x. unfold both. induction x as [|p x IH]; intros [|q y]; try reflexivity. cbn [map combine flat_map]. rewrite map_app, <- IH. destruct p, q; reflexivity.
Qed.
Lemma ranks_mono : forall f u, (forall x y, x < y -> f x < f y) -> ranks (map f u) = ranks u.
Proof.
  intros f u Hf. unfold ranks. rewrite map_map. apply map_ext. intros x. rewrite !rank_sum. f_equal. rewrite map_map. f_equal. apply map_ext. intros y.
  unfold half. destruct (Rtotal_order x y) as [L|[->|L]]; [pose proof (Hf _ _ L)| |pose proof (Hf _ _ L)];
    repeat match goal with |- context [Rlt_dec ?p ?q] => destruct (Rlt_dec p q) | |- context [Req_EM_T ?p ?q] => destruct (Req_EM_T p q) end; lra.
Qed.
Lemma varies_mono : forall f u, (forall x y, x < y -> f x < f y) -> (varies (map f u) <-> varies u).
Proof. intros f u Hf. rewrite <- (varies_ranks (map f u)), <- (varies_ranks u), ranks_mono by auto. reflexivity. Qed.
Theorem C94_order_only : forall f X a m t, table X a -> (forall j x y, x < y -> f j x < f j y) ->
  get_corr_distance_matrix spearman_matrix (refill X (columnwise f a)) "spearman" m t = get_corr_distance_matrix spearman_matrix X "spearman" m t.
Proof.
  intros f X a m t HX Hf. assert (S : spearman_matrix (columnwise f a) = spearman_matrix a).
  { unfold spearman_matrix, columnwise. cbn [ncol]. f_equal. extensionality i. extensionality j.
    assert (CC : forall j, col (mkArr (nrow a) (ncol a) (fun i j => lift_num (f j) (at2 a i j))) j = map (lift_num (f j)) (col a j)) by (intros k; unfold col; cbn [nrow at2]; rewrite map_map; reflexivity). rewrite !CC.
    destruct (spearman_pairs (map (lift_num (f i)) (col a i)) (map (lift_num (f j)) (col a j))) as [P1 P2]. destruct (spearman_pairs (col a i) (col a j)) as [P3 P4]. cbv zeta in *.
    rewrite both_lift in P1, P2. rewrite !map_map in P1, P2. cbn [fst snd] in P1, P2.
    rewrite <- (map_map fst (f i)) in P1, P2. rewrite <- (map_map snd (f j)) in P1, P2. rewrite !varies_mono in P1, P2 by auto. rewrite !ranks_mono in P1 by auto.
    destruct (varies_dec (map fst (both (col a i) (col a j)))) as [A|A]; [destruct (varies_dec (map snd (both (col a i) (col a j)))) as [B|B]|].
    - rewrite (proj1 (P1 (conj A B))), (proj1 (P3 (conj A B))). reflexivity.
    - rewrite P2, P4 by auto. reflexivity.
    - rewrite P2, P4 by auto. reflexivity. }
  destruct HX as [[->|(names & ->)] H2]; cbn [refill]; unfold get_corr_distance_matrix, calculate_correlation, check_2d; cbn [existsb String.eqb Ascii.eqb Bool.eqb orb negb]; rewrite S; reflexivity.
Qed.
(** two columns ordered alike, or oppositely, in the rows where both are present *)
Definition alike (ps : list (R * R)) : Prop := forall p q, In p ps -> In q ps -> (fst p < fst q <-> snd p < snd q).
Definition opposite (ps : list (R * R)) : Prop := forall p q, In p ps -> In q ps -> (fst p < fst q <-> snd q < snd p).
Lemma alike_ranks : forall ps, alike ps -> ranks (map fst ps) = ranks (map snd ps).
Proof.
  intros ps H. unfold ranks. rewrite !map_map. apply map_ext_in. intros p Hp. rewrite !rank_sum. f_equal. rewrite !map_map. f_equal. apply map_ext_in. intros q Hq.
  pose proof (H p q Hp Hq). pose proof (H q p Hq Hp). unfold half. destruct (Rlt_dec (fst q) (fst p)), (Rlt_dec (snd q) (snd p)); try tauto; try lra. destruct (Rtotal_order (fst p) (fst q)) as [L|[L|L]]; [|rewrite L|tauto].
  - assert (snd p < snd q) by tauto. destruct (Req_EM_T (fst p) (fst q)), (Req_EM_T (snd p) (snd q)); lra.
  - assert (~ snd p < snd q) by (rewrite <- H0; lra). destruct (Req_EM_T (fst q) (fst q)); [|congruence]. destruct (Req_EM_T (snd p) (snd q)); lra.
Qed.
Lemma opposite_ranks : forall ps, opposite ps -> ranks (map fst ps) = affine (-1) (INR (length ps) + 1) (ranks (map snd ps)).
Proof.
  intros ps H. unfold ranks, affine. rewrite !map_map. apply map_ext_in. intros p Hp. rewrite !rank_sum. rewrite !map_map.
  assert (Q : rsum (map (fun q => half (fst p) (fst q)) ps) + rsum (map (fun q => half (snd p) (snd q)) ps) = INR (length ps)).
  { rewrite <- rsum_plus. rewrite (rsum_ext _ _ (fun _ => 1)); [rewrite rsum_const; ring|]. intros q Hq. pose proof (H p q Hp Hq) as H1. pose proof (H q p Hq Hp) as H2.
    unfold half. destruct (Rtotal_order (fst p) (fst q)) as [L|[L|L]].
    - assert (snd q < snd p) by tauto. destruct (Rlt_dec (fst q) (fst p)), (Req_EM_T (fst p) (fst q)), (Rlt_dec (snd q) (snd p)); lra.
    - assert (~ snd q < snd p) by (rewrite <- H1; lra). assert (~ snd p < snd q) by (rewrite <- H2; lra).
      destruct (Rlt_dec (fst q) (fst p)), (Req_EM_T (fst p) (fst q)), (Rlt_dec (snd q) (snd p)), (Req_EM_T (snd p) (snd q)); lra.
    - assert (snd p < snd q) by tauto. destruct (Rlt_dec (fst q) (fst p)), (Req_EM_T (fst p) (fst q)), (Rlt_dec (snd q) (snd p)), (Req_EM_T (snd p) (snd q)); lra. }
  lra.
Qed.
(** equality in the Cauchy-Schwarz inequality *)
Lemma pearson_one : forall x y, length x = length y -> varies x -> varies y -> pearson x y = 1 -> exists k, 0 < k /\ forall i, (i < length x)%nat -> centred x i = k * centred y i.
Proof.
  intros x y L Vx Vy P. destruct (varies_pos x Vx) as [Px _]. destruct (varies_pos y Vy) as [Py _]. unfold pearson in P.
  assert (S1 : 0 < sqrt (inner x x)) by (apply sqrt_lt_R0; auto). assert (S2 : 0 < sqrt (inner y y)) by (apply sqrt_lt_R0; auto).
  assert (E : inner x y = sqrt (inner x x) * sqrt (inner y y)).
  { apply (f_equal (fun r => r * (sqrt (inner x x) * sqrt (inner y y)))) in P. unfold Rdiv in P. rewrite Rmult_assoc, Rinv_l in P by nra. lra. }
  exists (inner x y / inner y y). assert (K : 0 < inner x y) by (rewrite E; nra). split; [apply Rdiv_lt_0_compat; auto|].
  assert (E2 : inner x y * inner x y = inner x x * inner y y).
  { rewrite E. replace (sqrt (inner x x) * sqrt (inner y y) * (sqrt (inner x x) * sqrt (inner y y))) with (sqrt (inner x x) * sqrt (inner x x) * (sqrt (inner y y) * sqrt (inner y y))) by ring. rewrite !sqrt_sqrt by lra. reflexivity. }
  assert (Z : dot (length x) (fun i => centred x i + - (inner x y / inner y y) * centred y i) (fun i => centred x i + - (inner x y / inner y y) * centred y i) = 0).
  { rewrite dot_lin2. rewrite (dot_sym _ (centred y) (centred x)). change (dot (length x) (centred x) (centred x)) with (inner x x). change (dot (length x) (centred x) (centred y)) with (inner x y).
    replace (dot (length x) (centred y) (centred y)) with (inner y y) by (rewrite inner_dot, L; reflexivity). set (A := inner x x) in *. set (B := inner y y) in *. set (C := inner x y) in *.
    replace (A + - (C / B) * C + - (C / B) * C + - (C / B) * - (C / B) * B) with (A - C * C / B) by (field; lra). rewrite E2. field. lra. }
  intros i Hi. pose proof (dot_zero _ _ Z i Hi) as Q. cbv beta in Q. lra.
Qed.
(** the rank correlation is 1, hence the angular distance 0, exactly when the columns are ordered alike; ordered oppositely, the angular distance is 1 *)
Theorem C94_extremes : forall a names i j, (2 <= ncol a)%nat ->
  let ps := both (col a i) (col a j) in varies (map fst ps) -> varies (map snd ps) ->
  exists d, get_corr_distance_matrix spearman_matrix (OFrame names a) "spearman" "angular" None = Ok (OFrame names d)
    /\ (at2 d i j = Fin 0 <-> alike ps) /\ (opposite ps -> at2 d i j = Fin 1).
Proof.
  intros a names i j H2 ps Vu Vv. destruct (C94_rank_correlation a names "angular" (or_introl eq_refl) H2) as ((d & E & _ & _ & H) & _). exists d. split; [exact E|]. destruct (H i j) as [Q _]. cbv beta in Q. fold ps in Q. rewrite (Q (conj Vu Vv)). clear Q H E.
  apply varies_ranks in Vu, Vv. set (ru := ranks (map fst ps)) in *. set (rv := ranks (map snd ps)) in *. assert (L : length ru = length rv) by (unfold ru, rv; rewrite !len_ranks, !map_length; reflexivity).
  assert (FA : forall r, -1 <= r <= 1 -> (formula "angular" r = 0 <-> r = 1)).
  { intros r Hr. unfold formula, angular. cbn [String.eqb Ascii.eqb Bool.eqb]. split; [|intros ->; replace ((1 - 1) / 2) with 0 by field; apply sqrt_0]. intros Z. apply sqrt_eq_0 in Z; lra. }
  pose proof (pearson_bounds ru rv L Vu Vv) as B. split; [split|].
  - intros X. injection X as X. apply FA in X; auto. destruct (pearson_one ru rv L Vu Vv X) as (k & K & C).
    assert (G : forall n n', (n < length ru)%nat -> (n' < length ru)%nat -> (nth n ru 0 < nth n' ru 0 <-> nth n rv 0 < nth n' rv 0)).
    { intros n n' Hn Hn'. pose proof (C n Hn) as C1. pose proof (C n' Hn') as C2. unfold centred in C1, C2. split; intros; nra. }
    assert (LR : length ru = length ps) by (unfold ru; rewrite len_ranks, map_length; reflexivity).
    assert (NR : forall n (p0 : R * R), (n < length ps)%nat -> nth n ru 0 = avg_rank (map fst ps) (fst (nth n ps p0)) /\ nth n rv 0 = avg_rank (map snd ps) (snd (nth n ps p0))).
    { intros n p0 Hn. unfold ru, rv, ranks. rewrite !map_map. split.
      - rewrite (nth_indep _ 0 (avg_rank (map fst ps) (fst p0))) by (rewrite map_length; auto). apply (map_nth (fun q => avg_rank (map fst ps) (fst q))).
      - rewrite (nth_indep _ 0 (avg_rank (map snd ps) (snd p0))) by (rewrite map_length; auto). apply (map_nth (fun q => avg_rank (map snd ps) (snd q))). }
    intros p q Hp Hq. destruct (In_nth ps p p Hp) as (n & Hn & En). destruct (In_nth ps q p Hq) as (n' & Hn' & En'). specialize (G n n' ltac:(lia) ltac:(lia)). destruct (NR n p Hn) as [R1 R2]. destruct (NR n' p Hn') as [R3 R4].
    rewrite R1, R2, R3, R4, En, En' in G. rewrite !rank_order in G by (apply in_map; auto). exact G.
  - intros A. f_equal. apply FA; auto. unfold ru, rv in *. rewrite alike_ranks in * by auto. apply pearson_self. auto.
  - intros O. f_equal. assert (P : pearson ru rv = -1).
    { assert (E : ru = affine (-1) (INR (length ps) + 1) rv) by (apply opposite_ranks; auto). rewrite E. rewrite pearson_affine by (auto; lra). rewrite pearson_self by auto. destruct (Rlt_dec 0 (-1)); lra. }
    rewrite P. unfold formula, angular. cbn [String.eqb Ascii.eqb Bool.eqb]. replace ((1 - -1) / 2) with 1 by field. apply sqrt_1.
Qed.

(** ** non-trivial instances *)
Example C93_example : table (OArr2 gaps) gaps /\ both (col gaps 0) (col gaps 2) = [(1, 2); (2, 1)].
Proof. split; [split; [left; auto|cbn; lia]|reflexivity]. Qed.
(** a transformer that replaces the correlations by the identity matrix: all distances are sqrt(1/2) *)
Example C93_transformer_example : exists d, get_corr_distance_matrix spearman_matrix (OArr2 gaps) "pearson" "angular"
    (Some (fun _ => Ok (OFrame [] (mkArr 3 3 (fun i j => if Nat.eqb i j then Fin 1 else Fin 0))))) = Ok (OFrame [] d) /\ at2 d 0 1 = Fin (sqrt (1 / 2)).
Proof.
  destruct (C93_transformer spearman_matrix (OArr2 gaps) gaps "pearson" (proj1 C93_example) (or_introl eq_refl)) as (c & _ & _ & H). destruct (H "angular"%string) as (_ & H1 & _).
  rewrite (H1 _ (OFrame [] (mkArr 3 3 (fun i j => if Nat.eqb i j then Fin 1 else Fin 0))) eq_refl). set (b := mkArr 3 3 _).
  assert (T : exists b', (OFrame [] b = OArr2 b' \/ exists n, OFrame [] b = OFrame n b') /\ (2 <= ncol b')%nat) by (exists b; split; [right; exists []; auto|cbn; lia]).
  rewrite (proj1 (C38_corr_to_dist (OFrame [] b) "angular") T (or_introl eq_refl)). destruct (C38_frames_not_checked "angular" [] b (or_introl eq_refl)) as (d & E & _ & _ & Hd). exists d. split; [exact E|].
  rewrite (proj1 (Hd 0%nat 1%nat) 0 eq_refl). rewrite clamp_id by lra. unfold formula, angular. cbn [String.eqb Ascii.eqb Bool.eqb]. do 2 f_equal. field.
Qed.
Example C94_example : ranks [3; 1; 3] = [5 / 2; 1; 5 / 2] /\ alike [(1, 10); (2, 20); (2, 20)] /\ opposite [(1, 2); (2, 1)].
Proof.
  split; [|split].
  - unfold ranks, avg_rank, smaller, equal_to. cbn [map filter]. repeat match goal with |- context [Rlt_dec ?p ?q] => destruct (Rlt_dec p q); try lra | |- context [Req_EM_T ?p ?q] => destruct (Req_EM_T p q); try lra end. cbn. repeat (f_equal; try lra).
  - intros p q Hp Hq. cbn in Hp, Hq. intuition (subst; cbn [fst snd] in *; lra).
  - intros p q Hp Hq. cbn in Hp, Hq. intuition (subst; cbn [fst snd] in *; lra).
Qed.
Print Assumptions C93_transformer. Print Assumptions C93_identity_transformer. Print Assumptions C93_rejections. Print Assumptions C93_missing_observations. Print Assumptions C93_triangle_with_gaps_refuted.
Print Assumptions C94_rank_correlation. Print Assumptions C94_order_only. Print Assumptions C94_extremes.
