(** The number of clusters (C70). *)
From Coq Require Import Reals Lra String List Arith Lia ZArith Bool.
From Verif Require Import Base Num Sums Sim_Model Dist_Model Feat_Model Cusum_Props Clust_Model Clust_Spec Clust_Gap_Props Clust_Silh_Props.
Import ListNotations.
Open Scope R_scope.

(** ** lists *)
Lemma combine_map : forall A B C (f : A -> B) (g : A -> C) l, combine (map f l) (map g l) = map (fun i => (f i, g i)) l.
Proof. induction l as [|x l IH]; [reflexivity|]. cbn [map combine]. rewrite IH. reflexivity. Qed.
Lemma neighbours : forall A (f : nat -> A) p, combine (removelast (map f (seq 0 (S p)))) (tl (map f (seq 0 (S p)))) = map (fun i => (f i, f (S i))) (seq 0 p).
Proof.
  intros A f p. replace (removelast (map f (seq 0 (S p)))) with (map f (seq 0 p)).
  - replace (tl (map f (seq 0 (S p)))) with (map (fun i => f (S i)) (seq 0 p)) by (cbn [seq map tl]; rewrite <- seq_shift, map_map; reflexivity). apply combine_map.
  - rewrite seq_S, map_app. cbn [map]. rewrite removelast_last. reflexivity.
Qed.
Lemma np_where_seq : forall h p, np_where (map h (seq 0 p)) = filter h (seq 0 p).
Proof.
  intros h p. unfold np_where. rewrite map_length, seq_length. apply filter_ext_in. intros i Hi. apply in_seq in Hi.
  rewrite (nth_indep _ false (h 0%nat)) by (rewrite map_length, seq_length; lia). rewrite (map_nth h (seq 0 p) 0%nat i), seq_nth by lia. reflexivity.
Qed.
Lemma filter_seq_first : forall h p a, match filter h (seq a p) with
  | [] => forall i, (a <= i < a + p)%nat -> h i = false
  | k :: _ => (a <= k < a + p)%nat /\ h k = true /\ forall i, (a <= i < k)%nat -> h i = false
  end.
Proof.
  intros h. induction p as [|p IH]; intros a; cbn [seq filter]; [intros; lia|]. destruct (h a) eqn:E.
  - repeat split; try lia. exact E.
  - specialize (IH (S a)). destruct (filter h (seq (S a) p)) as [|k t].
    + intros i Hi. destruct (Nat.eq_dec i a) as [->|]; [exact E|apply IH; lia].
    + destruct IH as (H1 & H2 & H3). repeat split; try lia; [exact H2|]. intros i Hi. destruct (Nat.eq_dec i a) as [->|]; [exact E|apply H3; lia].
Qed.

(** ** the loop *)
Lemma gap_loop_ok : forall G cut dist nb (f : Z -> num * num) ks acc s,
  (forall k, In k ks -> exists labels, cut k = Ok labels /\ forall s, fst (gap_statistic G s dist (OArr1 labels) nb None) = Ok (f k)) ->
  fst (gap_loop G cut dist nb ks acc s) = Ok (acc ++ map f ks)%list.
Proof.
  intros G cut dist nb f. induction ks as [|k ks IH]; intros acc s H; cbn [gap_loop map].
  - rewrite app_nil_r. reflexivity.
  - destruct (H k (or_introl eq_refl)) as (labels & E & Hg). rewrite E. specialize (Hg s). destruct (gap_statistic G s dist (OArr1 labels) nb None) as [r s']. cbn [fst] in Hg. subst r.
    rewrite IH by (intros k' Hk'; apply H; right; exact Hk'). rewrite <- app_assoc. reflexivity.
Qed.
Lemma gap_loop_raise : forall G cut dist nb (f : Z -> num * num) ks1 k0 ks2 acc s e,
  (forall k, In k ks1 -> exists labels, cut k = Ok labels /\ forall s, fst (gap_statistic G s dist (OArr1 labels) nb None) = Ok (f k)) ->
  (cut k0 = Raise e \/ exists labels, cut k0 = Ok labels /\ forall s, fst (gap_statistic G s dist (OArr1 labels) nb None) = Raise e) ->
  fst (gap_loop G cut dist nb (ks1 ++ k0 :: ks2) acc s) = Raise e.
Proof.
  intros G cut dist nb f. induction ks1 as [|k ks IH]; intros k0 ks2 acc s e H H0; cbn [gap_loop app].
  - destruct H0 as [-> | (labels & -> & H0)]; [reflexivity|]. specialize (H0 s). destruct (gap_statistic G s dist (OArr1 labels) nb None) as [r s']. cbn [fst] in H0. subst r. reflexivity.
  - destruct (H k (or_introl eq_refl)) as (labels & E & Hg). rewrite E. specialize (Hg s). destruct (gap_statistic G s dist (OArr1 labels) nb None) as [r s']. cbn [fst] in Hg. subst r.
    apply IH; [intros k' Hk'; apply H; right; exact Hk'|exact H0].
Qed.
Lemma in_range : forall m k, In k (nclust_range m) <-> (2 <= k <= m)%Z.
Proof.
  intros m k. unfold nclust_range. rewrite in_map_iff. split.
  - intros (i & <- & Hi). apply in_seq in Hi. lia.
  - intros H. exists (Z.to_nat (k - 2)). split; [lia|]. apply in_seq. lia.
Qed.

Lemma rule_bool : forall g sd k, real_or_inf (g k) -> real_or_inf (g (k + 1)%Z) ->
  ngtb (nadd (nsub (g k) (g (k + 1)%Z)) (Fin (sd (k + 1)%Z))) (Fin 0) = true <-> gap_rule g sd k.
Proof.
  intros g sd k H1 H2. unfold gap_rule, ngtb. destruct (g k) as [a| | |]; try contradiction; destruct (g (k + 1)%Z) as [b| | |]; try contradiction; cbn.
  - rewrite rltb_true. split; intros; lra.
  - split; [discriminate|tauto].
  - split; auto.
  - split; [discriminate|tauto].
Qed.

(** With the metric "gap" the result is the smallest k in 2 .. max_clust - 1 that satisfies the rule; IndexError exactly when there is none.
    The values are those gap_statistic gives for the cut into k clusters with the default seed. *)
Theorem C70_gap : forall G s cut dist max_clust nb g sd,
  (forall k, (2 <= k <= max_clust)%Z -> real_or_inf (g k) /\ exists labels, cut k = Ok labels /\
     forall s', fst (gap_statistic G s' dist (OArr1 labels) nb None) = Ok (g k, Fin (sd k))) ->
  let r := fst (optimize_n_clusters G s cut dist max_clust "gap" nb) in
  (forall k, r = Ok k <-> smallest_in 2 (max_clust - 1) (gap_rule g sd) k) /\
  (r = Raise IndexError <-> forall k, (2 <= k <= max_clust - 1)%Z -> ~ gap_rule g sd k) /\
  ((exists k, r = Ok k) \/ r = Raise IndexError).
Proof.
  intros G s cut dist m nb g sd H r.
  assert (EL : fst (gap_loop G cut dist nb (nclust_range m) [] s) = Ok (map (fun k => (g k, Fin (sd k))) (nclust_range m))).
  { rewrite (gap_loop_ok G cut dist nb (fun k => (g k, Fin (sd k)))); [reflexivity|]. intros k Hk. apply in_range in Hk. apply H. exact Hk. }
  set (h := fun i => ngtb (nadd (nsub (g (Z.of_nat i + 2)%Z) (g (Z.of_nat i + 2 + 1)%Z)) (Fin (sd (Z.of_nat i + 2 + 1)%Z))) (Fin 0)).
  assert (EC : np_where (gap_condition (map (fun k => (g k, Fin (sd k))) (nclust_range m))) = filter h (seq 0 (Z.to_nat (m - 2)))).
  { unfold gap_condition, nclust_range. rewrite map_map. destruct (Z.to_nat (m - 1)) as [|p] eqn:Ep.
    - replace (Z.to_nat (m - 2)) with 0%nat by lia. reflexivity.
    - replace (Z.to_nat (m - 2)) with p by lia. rewrite (neighbours _ (fun i => (g (Z.of_nat i + 2)%Z, Fin (sd (Z.of_nat i + 2)%Z)))), map_map. cbn [fst snd].
      rewrite <- np_where_seq. f_equal. apply map_ext. intros i. unfold h. replace (Z.of_nat (S i) + 2)%Z with (Z.of_nat i + 2 + 1)%Z by lia. reflexivity. }
  assert (HR : forall i, (i < Z.to_nat (m - 2))%nat -> h i = true <-> gap_rule g sd (Z.of_nat i + 2)%Z).
  { intros i Hi. unfold h. apply rule_bool; apply H; lia. }
  assert (Er : r = match filter h (seq 0 (Z.to_nat (m - 2))) with [] => Raise IndexError | k :: _ => Ok (Z.of_nat k + 2)%Z end).
  { unfold r, optimize_n_clusters. cbn [String.eqb]. change (String.eqb "gap" "gap") with true. cbn iota. destruct (gap_loop G cut dist nb (nclust_range m) [] s) as [q s']. cbn [fst] in EL. subst q.
    rewrite EC. destruct (filter h (seq 0 (Z.to_nat (m - 2)))); reflexivity. }
  rewrite Er. pose proof (filter_seq_first h (Z.to_nat (m - 2)) 0) as F. destruct (filter h (seq 0 (Z.to_nat (m - 2)))) as [|k0 t].
  - assert (N : forall k, (2 <= k <= m - 1)%Z -> ~ gap_rule g sd k).
    { intros k Hk R. pose proof (HR (Z.to_nat (k - 2)) ltac:(lia)) as Q. replace (Z.of_nat (Z.to_nat (k - 2)) + 2)%Z with k in Q by lia. apply Q in R. rewrite F in R by lia. discriminate. }
    repeat split; try discriminate; auto. intros (A & B & C). exfalso. apply (N k); assumption.
  - destruct F as (F1 & F2 & F3). apply HR in F2; [|lia].
    assert (SM : smallest_in 2 (m - 1) (gap_rule g sd) (Z.of_nat k0 + 2)%Z).
    { split; [lia|]. split; [exact F2|]. intros j Hj R. pose proof (HR (Z.to_nat (j - 2)) ltac:(lia)) as Q. replace (Z.of_nat (Z.to_nat (j - 2)) + 2)%Z with j in Q by lia. apply Q in R. rewrite F3 in R by lia. discriminate. }
    split; [|split].
    + intros k. split.
      * intros E. injection E as <-. exact SM.
      * intros (A & B & C). f_equal. destruct SM as (A' & B' & C'). destruct (Z.lt_trichotomy k (Z.of_nat k0 + 2)) as [L|[L|L]]; [|congruence|].
        -- exfalso. apply (C' k); [lia|exact B].
        -- exfalso. apply (C (Z.of_nat k0 + 2)%Z); [lia|exact B'].
    + split; [discriminate|]. intros N. exfalso. apply (N (Z.of_nat k0 + 2)%Z); [lia|exact F2].
    + left. eexists. reflexivity.
Qed.

(** So the result never is max_clust itself, nor below 2, and with max_clust <= 2 the call cannot succeed. *)
Theorem C70_gap_range : forall G s cut dist max_clust nb k,
  fst (optimize_n_clusters G s cut dist max_clust "gap" nb) = Ok k -> (2 <= k <= max_clust - 1)%Z.
Proof.
  intros G s cut dist m nb k. unfold optimize_n_clusters. change (String.eqb "gap" "gap") with true. cbn iota.
  assert (L : forall ks acc s gs, fst (gap_loop G cut dist nb ks acc s) = Ok gs -> length gs = (length acc + length ks)%nat).
  { induction ks as [|q ks IH]; intros acc s0 gs; cbn [gap_loop].
    - cbn [fst length]. intros E. injection E as <-. lia.
    - destruct (cut q) as [labels|e]; [|discriminate]. destruct (gap_statistic G s0 dist (OArr1 labels) nb None) as [[v|e] s1]; [|discriminate].
      intros E. apply IH in E. rewrite app_length in E. cbn [length] in *. lia. }
  specialize (L (nclust_range m) [] s). destruct (gap_loop G cut dist nb (nclust_range m) [] s) as [[gs|e] s']; [|discriminate]. specialize (L gs eq_refl).
  assert (LN : length (nclust_range m) = Z.to_nat (m - 1)) by (unfold nclust_range; rewrite map_length, seq_length; reflexivity). rewrite LN in L. cbn [length Nat.add] in L.
  destruct (np_where (gap_condition gs)) as [|k0 t] eqn:E; [discriminate|]. cbn [fst]. intros Q. injection Q as <-.
  assert (I : In k0 (np_where (gap_condition gs))) by (rewrite E; left; reflexivity). unfold np_where in I. apply filter_In in I. destruct I as (I & _). apply in_seq in I.
  unfold gap_condition in I. rewrite map_length, combine_length in I. assert (LT : length (tl gs) = (length gs - 1)%nat) by (destruct gs; cbn; lia). lia.
Qed.

(** An exception of the cut or of the gap statistic at the first k that has one is the outcome. *)
Theorem C70_gap_raises : forall G s cut dist max_clust nb k0 e (f : Z -> num * num),
  (2 <= k0 <= max_clust)%Z ->
  (forall k, (2 <= k < k0)%Z -> exists labels, cut k = Ok labels /\ forall s', fst (gap_statistic G s' dist (OArr1 labels) nb None) = Ok (f k)) ->
  (cut k0 = Raise e \/ exists labels, cut k0 = Ok labels /\ forall s', fst (gap_statistic G s' dist (OArr1 labels) nb None) = Raise e) ->
  fst (optimize_n_clusters G s cut dist max_clust "gap" nb) = Raise e.
Proof.
  intros G s cut dist m nb k0 e f Hk H H0. unfold optimize_n_clusters. change (String.eqb "gap" "gap") with true. cbn iota.
  assert (ES : nclust_range m = (map (fun i => (Z.of_nat i + 2)%Z) (seq 0 (Z.to_nat (k0 - 2))) ++ k0 :: map (fun i => (Z.of_nat i + 2)%Z) (seq (S (Z.to_nat (k0 - 2))) (Z.to_nat (m - k0))))%list).
  { unfold nclust_range. replace (Z.to_nat (m - 1)) with (Z.to_nat (k0 - 2) + S (Z.to_nat (m - k0)))%nat by lia. rewrite seq_app, map_app. f_equal.
    cbn [seq map Nat.add]. f_equal. lia. }
  pose proof (gap_loop_raise G cut dist nb f (map (fun i => (Z.of_nat i + 2)%Z) (seq 0 (Z.to_nat (k0 - 2)))) k0 (map (fun i => (Z.of_nat i + 2)%Z) (seq (S (Z.to_nat (k0 - 2))) (Z.to_nat (m - k0)))) [] s e) as Q.
  rewrite <- ES in Q. specialize (Q ltac:(intros k Hi; apply in_map_iff in Hi; destruct Hi as (i & <- & Hi); apply in_seq in Hi; apply H; lia) H0).
  destruct (gap_loop G cut dist nb (nclust_range m) [] s) as [r s']. cbn [fst] in Q. subst r. reflexivity.
Qed.

(** Against the published rule, which has >= and a standard deviation widened by sqrt(1 + 1/nb): it selects at most the library's number. *)
Theorem C70_published_selects_no_more : forall G s cut dist max_clust nb g sd k, (1 <= nb)%Z ->
  (forall k, (2 <= k <= max_clust)%Z -> 0 <= sd k /\ exists labels, cut k = Ok labels /\
     forall s', fst (gap_statistic G s' dist (OArr1 labels) nb None) = Ok (Fin (g k), Fin (sd k))) ->
  fst (optimize_n_clusters G s cut dist max_clust "gap" nb) = Ok k ->
  exists k', (2 <= k' <= k)%Z /\ smallest_in 2 (max_clust - 1) (published_rule g sd nb) k'.
Proof.
  intros G s cut dist m nb g sd k Hnb H E. pose proof (C70_gap G s cut dist m nb (fun k => Fin (g k)) sd) as Q. cbv zeta in Q.
  destruct Q as (Q & _).
  { intros j Hj. split; [exact I|]. apply (H j Hj). }
  apply Q in E. destruct E as (A & B & C). unfold gap_rule in B.
  assert (P : published_rule g sd nb k).
  { unfold published_rule. destruct (H (k + 1)%Z ltac:(lia)) as (S0 & _). assert (1 <= sqrt (1 + / IZR nb)).
    { rewrite <- sqrt_1 at 1. apply sqrt_le_1_alt. assert (0 < / IZR nb) by (apply Rinv_0_lt_compat; apply IZR_lt; lia). lra. }
    assert (sd (k + 1)%Z * 1 <= sd (k + 1)%Z * sqrt (1 + / IZR nb)) by (apply Rmult_le_compat_l; assumption). lra. }
  assert (D : forall n, (Z.of_nat n <= k - 2)%Z -> (exists k', (2 <= k' <= 2 + Z.of_nat n)%Z /\ smallest_in 2 (m - 1) (published_rule g sd nb) k') \/ forall j, (2 <= j <= 2 + Z.of_nat n)%Z -> ~ published_rule g sd nb j).
  { induction n as [|n IH]; intros Hn.
    - destruct (Rle_dec (g (2 + 1)%Z - sd (2 + 1)%Z * sqrt (1 + / IZR nb)) (g 2%Z)) as [L|L].
      + left. exists 2%Z. split; [lia|]. split; [lia|]. split; [exact L|intros; lia].
      + right. intros j Hj. replace j with 2%Z by lia. exact L.
    - destruct (IH ltac:(lia)) as [(k' & K1 & K2)|N].
      + left. exists k'. split; [lia|exact K2].
      + set (q := (2 + Z.of_nat (S n))%Z). destruct (Rle_dec (g (q + 1)%Z - sd (q + 1)%Z * sqrt (1 + / IZR nb)) (g q)) as [L|L].
        * left. exists q. split; [unfold q; lia|]. split; [unfold q; lia|]. split; [exact L|]. intros j Hj. apply N. unfold q in Hj. lia.
        * right. intros j Hj. destruct (Z.eq_dec j q) as [->|]; [exact L|]. apply N. unfold q in *. lia. }
  destruct (D (Z.to_nat (k - 2)) ltac:(lia)) as [(k' & K1 & K2)|N].
  - exists k'. split; [lia|exact K2].
  - exfalso. apply (N k); [lia|exact P].
Qed.

(** ** silhouette *)
Lemma nltb_trans : forall x y z, nltb x y = true -> nltb y z = true -> nltb x z = true.
Proof. intros [a| | |] [b| | |] [c| | |]; cbn; try discriminate; auto. rewrite !rltb_true. lra. Qed.
Lemma nltb_neg_trans : forall x y z, is_nan y = false -> nltb x y = false -> nltb y z = false -> nltb x z = false.
Proof. intros [a| | |] [b| | |] [c| | |]; cbn; try discriminate; auto. rewrite !rltb_false. lra. Qed.
Lemma nltb_mix : forall x y z, is_nan x = false -> is_nan z = false -> nltb x y = true -> nltb z y = false -> nltb x z = true.
Proof. intros [a| | |] [b| | |] [c| | |]; cbn; try discriminate; auto. rewrite !rltb_true, rltb_false. lra. Qed.
Lemma nltb_irrefl : forall x, nltb x x = false.
Proof. intros [a| | |]; cbn; auto. apply rltb_false. lra. Qed.
Lemma nltb_asym : forall x y, nltb x y = true -> nltb y x = false.
Proof. intros x y H. destruct (nltb y x) eqn:E; [|reflexivity]. pose proof (nltb_trans _ _ _ H E) as Q. rewrite nltb_irrefl in Q. discriminate. Qed.

Lemma argmax_from_num : forall l b pos i, is_nan b = false -> (forall x, In x l -> is_nan x = false) ->
  (argmax_from b pos i l = pos /\ forall j, (j < length l)%nat -> nltb b (nth j l NaN) = false) \/
  (exists j, argmax_from b pos i l = (i + j)%nat /\ (j < length l)%nat /\ nltb b (nth j l NaN) = true /\
     (forall m, (m < length l)%nat -> nltb (nth j l NaN) (nth m l NaN) = false) /\ forall m, (m < j)%nat -> nltb (nth m l NaN) (nth j l NaN) = true).
Proof.
  induction l as [|x l IH]; intros b pos i Hb Hl.
  - left. split; [reflexivity|]. cbn. intros; lia.
  - cbn [argmax_from]. rewrite Hb. assert (Hx : is_nan x = false) by (apply Hl; left; reflexivity). rewrite Hx.
    assert (Hl' : forall y, In y l -> is_nan y = false) by (intros y Hy; apply Hl; right; exact Hy).
    assert (Hn : forall j, (j < length l)%nat -> is_nan (nth j l NaN) = false) by (intros j Hj; apply Hl', nth_In; exact Hj).
    destruct (nltb b x) eqn:B.
    + right. destruct (IH x i (S i) Hx Hl') as [(E & N)|(j & E & Hj & J1 & J2 & J3)].
      * exists 0%nat. split; [rewrite E; lia|]. split; [cbn; lia|]. split; [exact B|]. split.
        -- intros [|m] Hm; cbn [nth]; [apply nltb_irrefl|apply N; cbn in Hm; lia].
        -- intros; lia.
      * exists (S j). split; [rewrite E; lia|]. split; [cbn; lia|]. cbn [nth]. split; [exact (nltb_trans _ _ _ B J1)|]. split.
        -- intros [|m] Hm; [exact (nltb_asym _ _ J1)|apply J2; cbn in Hm; lia].
        -- intros [|m] Hm; [exact J1|apply J3; lia].
    + destruct (IH b pos (S i) Hb Hl') as [(E & N)|(j & E & Hj & J1 & J2 & J3)].
      * left. split; [exact E|]. intros [|j] Hj; [exact B|apply N; cbn in Hj; lia].
      * right. exists (S j). split; [rewrite E; lia|]. split; [cbn; lia|]. cbn [nth]. split; [exact J1|].
        assert (XJ : nltb x (nth j l NaN) = true) by (destruct (nltb x (nth j l NaN)) eqn:Q; [reflexivity|]; pose proof (nltb_neg_trans b x _ Hx B Q); congruence).
        split.
        -- intros [|m] Hm; [exact (nltb_asym _ _ XJ)|apply J2; cbn in Hm; lia].
        -- intros [|m] Hm; [exact XJ|apply J3; lia].
Qed.
Lemma argmax_num : forall l, l <> [] -> (forall x, In x l -> is_nan x = false) -> let k := argmax l in
  (k < length l)%nat /\ (forall m, (m < length l)%nat -> nltb (nth k l NaN) (nth m l NaN) = false) /\ forall m, (m < k)%nat -> nltb (nth m l NaN) (nth k l NaN) = true.
Proof.
  intros [|x l] H Hn; [congruence|]. cbn [argmax]. assert (Hx : is_nan x = false) by (apply Hn; left; reflexivity).
  destruct (argmax_from_num l x 0 1 Hx ltac:(intros y Hy; apply Hn; right; exact Hy)) as [(E & N)|(j & E & Hj & J1 & J2 & J3)]; rewrite E; cbv zeta.
  - split; [cbn; lia|]. split; [|intros; lia]. intros [|m] Hm; cbn [nth]; [apply nltb_irrefl|apply N; cbn in Hm; lia].
  - cbn [Nat.add]. split; [cbn; lia|]. cbn [nth]. split; [intros [|m] Hm; [exact (nltb_asym _ _ J1)|apply J2; cbn in Hm; lia]|]. intros [|m] Hm; [exact J1|apply J3; lia].
Qed.
Lemma argmax_from_nan : forall l b pos i k, is_nan b = false -> (k < length l)%nat -> is_nan (nth k l NaN) = true -> (forall m, (m < k)%nat -> is_nan (nth m l NaN) = false) ->
  argmax_from b pos i l = (i + k)%nat.
Proof.
  induction l as [|x l IH]; intros b pos i k Hb Hk Hn Hm; [cbn in Hk; lia|]. cbn [argmax_from]. rewrite Hb. destruct k as [|k].
  - cbn [nth] in Hn. rewrite Hn. lia.
  - pose proof (Hm 0%nat ltac:(lia)) as H0. cbn [nth] in H0. rewrite H0.
    assert (Q : forall b' pos', is_nan b' = false -> argmax_from b' pos' (S i) l = (i + S k)%nat).
    { intros b' pos' Hb'. rewrite (IH b' pos' (S i) k Hb'); [lia|cbn in Hk; lia|exact Hn|]. intros m Hm'. apply (Hm (S m)). lia. }
    destruct (nltb b x); apply Q; assumption.
Qed.
Lemma argmax_nan : forall l k, (k < length l)%nat -> is_nan (nth k l NaN) = true -> (forall m, (m < k)%nat -> is_nan (nth m l NaN) = false) -> argmax l = k.
Proof.
  intros [|x l] k Hk Hn Hm; [cbn in Hk; lia|]. cbn [argmax]. destruct k as [|k].
  - cbn [nth] in Hn. destruct l; cbn [argmax_from]; [reflexivity|rewrite Hn; reflexivity].
  - rewrite (argmax_from_nan l x 0 1 k); [lia|apply (Hm 0%nat); lia|cbn in Hk; lia|exact Hn|]. intros m Hm'. apply (Hm (S m)). lia.
Qed.

Lemma silhouette_run : forall G s cut dist max_clust nb t, (2 <= max_clust)%Z ->
  (forall k, (2 <= k <= max_clust)%Z -> exists labels, cut k = Ok labels /\ silhouette_tstat dist (OArr1 labels) = Ok (t k)) ->
  optimize_n_clusters G s cut dist max_clust "silhouette" nb =
  (Ok (Z.of_nat (argmax (map (fun i => t (Z.of_nat i + 2)%Z) (seq 0 (Z.to_nat (max_clust - 1))))) + 2)%Z, s).
Proof.
  intros G s cut dist m nb t Hm H. unfold optimize_n_clusters. change (String.eqb "silhouette" "gap") with false. change (String.eqb "silhouette" "silhouette") with true. cbn iota.
  rewrite (mapM_ok_intro _ _ _ t).
  - unfold nclust_range. rewrite map_map. destruct (Z.to_nat (m - 1)) as [|p] eqn:E; [lia|]. reflexivity.
  - intros k Hk. apply in_range in Hk. destruct (H k Hk) as (labels & -> & E). exact E.
Qed.

(** With the metric "silhouette" the result is the first k in 2 .. max_clust with the largest t-statistic (real or infinite, no NaN);
    ValueError when max_clust < 2; np.random is left alone. *)
Theorem C70_silhouette : forall G s cut dist max_clust nb t, (2 <= max_clust)%Z ->
  (forall k, (2 <= k <= max_clust)%Z -> t k <> NaN /\ exists labels, cut k = Ok labels /\ silhouette_tstat dist (OArr1 labels) = Ok (t k)) ->
  exists k, optimize_n_clusters G s cut dist max_clust "silhouette" nb = (Ok k, s) /\ (2 <= k <= max_clust)%Z /\
    (forall j, (2 <= j <= max_clust)%Z -> ~ below (t k) (t j)) /\ (forall j, (2 <= j < k)%Z -> below (t j) (t k)).
Proof.
  intros G s cut dist m nb t Hm H. rewrite (silhouette_run G s cut dist m nb t Hm) by (intros k Hk; apply H; exact Hk).
  set (ts := map (fun i => t (Z.of_nat i + 2)%Z) (seq 0 (Z.to_nat (m - 1)))).
  assert (LT : length ts = Z.to_nat (m - 1)) by (unfold ts; rewrite map_length, seq_length; reflexivity).
  assert (NT : forall i, (i < Z.to_nat (m - 1))%nat -> nth i ts NaN = t (Z.of_nat i + 2)%Z).
  { intros i Hi. unfold ts. rewrite (nth_indep _ NaN (t (Z.of_nat 0 + 2)%Z)) by (rewrite map_length, seq_length; exact Hi).
    rewrite (map_nth (fun i => t (Z.of_nat i + 2)%Z) (seq 0 (Z.to_nat (m - 1))) 0%nat i), seq_nth by exact Hi. reflexivity. }
  destruct (argmax_num ts) as (A & B & C).
  - intros E. rewrite E in LT. cbn in LT. lia.
  - intros x Hx. unfold ts in Hx. apply in_map_iff in Hx. destruct Hx as (i & <- & Hi). apply in_seq in Hi. destruct (H (Z.of_nat i + 2)%Z ltac:(lia)) as (N & _).
    destruct (t (Z.of_nat i + 2)%Z); cbn; congruence.
  - exists (Z.of_nat (argmax ts) + 2)%Z. rewrite LT in A. split; [reflexivity|]. split; [lia|]. unfold below. rewrite <- (NT _ A). split.
    + intros j Hj. specialize (B (Z.to_nat (j - 2)) ltac:(lia)). rewrite (NT (Z.to_nat (j - 2)) ltac:(lia)) in B. replace (Z.of_nat (Z.to_nat (j - 2)) + 2)%Z with j in B by lia. congruence.
    + intros j Hj. specialize (C (Z.to_nat (j - 2)) ltac:(lia)). rewrite (NT (Z.to_nat (j - 2)) ltac:(lia)) in C. replace (Z.of_nat (Z.to_nat (j - 2)) + 2)%Z with j in C by lia. exact C.
Qed.
(** A t-statistic that is no number (no dispersion of the silhouettes, all of them 0) is taken for the largest: the first such k is
    returned, however good the other numbers of clusters are. *)
Theorem C70_silhouette_nan_wins : forall G s cut dist max_clust nb t k,
  (forall k, (2 <= k <= max_clust)%Z -> exists labels, cut k = Ok labels /\ silhouette_tstat dist (OArr1 labels) = Ok (t k)) ->
  (2 <= k <= max_clust)%Z -> t k = NaN -> (forall j, (2 <= j < k)%Z -> t j <> NaN) ->
  optimize_n_clusters G s cut dist max_clust "silhouette" nb = (Ok k, s).
Proof.
  intros G s cut dist m nb t k H Hk Hn Hf. rewrite (silhouette_run G s cut dist m nb t ltac:(lia) H). f_equal. f_equal.
  set (ts := map (fun i => t (Z.of_nat i + 2)%Z) (seq 0 (Z.to_nat (m - 1)))).
  assert (NT : forall i, (i < Z.to_nat (m - 1))%nat -> nth i ts NaN = t (Z.of_nat i + 2)%Z).
  { intros i Hi. unfold ts. rewrite (nth_indep _ NaN (t (Z.of_nat 0 + 2)%Z)) by (rewrite map_length, seq_length; exact Hi).
    rewrite (map_nth (fun i => t (Z.of_nat i + 2)%Z) (seq 0 (Z.to_nat (m - 1))) 0%nat i), seq_nth by exact Hi. reflexivity. }
  rewrite (argmax_nan ts (Z.to_nat (k - 2))).
  - lia.
  - unfold ts. rewrite map_length, seq_length. lia.
  - rewrite NT by lia. replace (Z.of_nat (Z.to_nat (k - 2)) + 2)%Z with k by lia. rewrite Hn. reflexivity.
  - intros j Hj. rewrite NT by lia. specialize (Hf (Z.of_nat j + 2)%Z ltac:(lia)). destruct (t (Z.of_nat j + 2)%Z); cbn; congruence.
Qed.
(** Unknown metrics and an empty range raise ValueError (silhouette) and IndexError (gap). *)
Theorem C70_errors : forall G s cut dist max_clust nb,
  (forall metric, metric <> "gap"%string -> metric <> "silhouette"%string -> optimize_n_clusters G s cut dist max_clust metric nb = (Raise ValueError, s)) /\
  ((max_clust < 2)%Z -> optimize_n_clusters G s cut dist max_clust "silhouette" nb = (Raise ValueError, s) /\
                        optimize_n_clusters G s cut dist max_clust "gap" nb = (Raise IndexError, s)).
Proof.
  intros G s cut dist m nb. split.
  - intros metric H1 H2. unfold optimize_n_clusters. apply String.eqb_neq in H1. apply String.eqb_neq in H2. rewrite H1, H2. reflexivity.
  - intros Hm. assert (E : nclust_range m = []) by (unfold nclust_range; replace (Z.to_nat (m - 1)) with 0%nat by lia; reflexivity).
    unfold optimize_n_clusters. rewrite E. split; reflexivity.
Qed.

(** ** Cases that meet the hypotheses *)
Definition split_labels : list R := [0; 1; 2; 2].
Definition front_labels : list R := [0; 0; 1; 2].
Definition cut4 (third : list R) (k : Z) : res (list num) := if (k =? 2)%Z then Ok (map Fin pair_labels) else if (k =? 3)%Z then Ok (map Fin third) else Raise ValueError.
Lemma pair_within : forall f, within pair_labels f = f 0%nat 0%nat + f 0%nat 1%nat + (f 1%nat 0%nat + f 1%nat 1%nat) + (f 2%nat 2%nat + f 2%nat 3%nat) + (f 3%nat 2%nat + f 3%nat 3%nat).
Proof. intros f. unfold within, sumn, label, pair_labels. cbn [length seq map nth rsum fold_right]. repeat (destruct (Req_EM_T _ _); try lra). Qed.
Lemma split_within : forall f, within split_labels f = f 0%nat 0%nat + f 1%nat 1%nat + (f 2%nat 2%nat + f 2%nat 3%nat) + (f 3%nat 2%nat + f 3%nat 3%nat).
Proof. intros f. unfold within, sumn, label, split_labels. cbn [length seq map nth rsum fold_right]. repeat (destruct (Req_EM_T _ _); try lra). Qed.
Lemma gap4 : forall s D M l, is_largest 4 D M -> 0 < M -> length l = 4%nat -> 0 < within l (fun i j => D i j * D i j) ->
  0 < within l (fun i j => if Nat.eqb i j then 0 else M / 2 * (M / 2)) ->
  fst (gap_statistic zero_gen s (OArr2 (mkArr 4 4 (fun i j => Fin (D i j)))) (OArr1 (map Fin l)) 1 None) =
  Ok (Fin (ln (within l (fun i j => if Nat.eqb i j then 0 else M / 2 * (M / 2))) - ln (within l (fun i j => D i j * D i j))), Fin 0).
Proof.
  intros s D M l HM PM El HW HR. pose proof (C69_ratio zero_gen s (OArr2 (mkArr 4 4 (fun i j => Fin (D i j)))) (OArr1 (map Fin l)) 4 D l M 1 None) as E. cbv zeta in E.
  assert (ER : within l (fun i j => ref_dist zero_gen (seed_of None + Z.of_nat 0) 4 M i j * ref_dist zero_gen (seed_of None + Z.of_nat 0) 4 M i j) = within l (fun i j => if Nat.eqb i j then 0 else M / 2 * (M / 2))).
  { apply within_ext. intros i j Hi Hj _. unfold ref_dist. destruct (Nat.eq_dec i j) as [->|N]; [rewrite Nat.eqb_refl; ring|]. rewrite (proj2 (Nat.eqb_neq i j) N). rewrite half_drawn by lia. field. }
  rewrite E; clear E; try lia; try assumption.
  - change (Z.to_nat 1) with 1%nat. f_equal. assert (EA : avg 1 (fun b => ln (within l (fun i j => ref_dist zero_gen (seed_of None + Z.of_nat b) 4 M i j * ref_dist zero_gen (seed_of None + Z.of_nat b) 4 M i j))) =
        ln (within l (fun i j => if Nat.eqb i j then 0 else M / 2 * (M / 2)))).
    { unfold avg, sumn. cbn [seq map rsum fold_right]. rewrite ER. cbn [INR]. field. }
    f_equal; [rewrite EA; reflexivity|]. f_equal. unfold spread. rewrite EA. unfold avg, sumn. cbn [seq map rsum fold_right]. rewrite ER. transitivity (sqrt 0); [f_equal; cbn [INR]; field|apply sqrt_0].
  - exists (mkArr 4 4 (fun i j => Fin (D i j))). repeat split. left. reflexivity.
  - left. reflexivity.
  - unfold valid_seed, seed_of. lia.
  - unfold valid_seed, seed_of. lia.
  - intros b Hb. change (Z.to_nat 1) with 1%nat in Hb. replace b with 0%nat by lia. rewrite ER. exact HR.
Qed.
Example C70_example_gap : forall s, fst (optimize_n_clusters zero_gen s (cut4 split_labels) (OArr2 (mkArr 4 4 (fun i j => Fin (two_pairs i j)))) 3 "gap" 1) = Ok 2%Z.
Proof.
  intros s. assert (HM : is_largest 4 two_pairs 10).
  { split; [exists 0%nat, 3%nat; repeat split; lia|]. intros i j _ _. unfold two_pairs. destruct (Nat.eqb i j); [lra|]. destruct (_ && _); [lra|]. destruct (_ && _); lra. }
  destruct (C70_gap zero_gen s (cut4 split_labels) (OArr2 (mkArr 4 4 (fun i j => Fin (two_pairs i j)))) 3 1
    (fun k => if (k =? 2)%Z then Fin (ln 100 - ln 10) else Fin (ln 50 - ln 8)) (fun _ => 0)) as (Q & _).
  - intros k Hk. split; [destruct (k =? 2)%Z; exact I|]. assert (k = 2%Z \/ k = 3%Z) as [->| ->] by lia; [exists (map Fin pair_labels)|exists (map Fin split_labels)]; (split; [reflexivity|]); intros s'.
    + rewrite (gap4 s' two_pairs 10 pair_labels HM); try lra; try reflexivity; rewrite !pair_within; cbn; try lra. f_equal. f_equal. f_equal. f_equal; [f_equal|f_equal; f_equal]; lra.
    + rewrite (gap4 s' two_pairs 10 split_labels HM); try lra; try reflexivity; rewrite !split_within; cbn; try lra. f_equal. f_equal. f_equal. f_equal; [f_equal|f_equal; f_equal]; lra.
  - apply Q. split; [lia|]. split; [|intros; lia]. unfold gap_rule. cbn [Z.eqb Pos.eqb Z.add Pos.add Pos.add_carry Pos.succ].
    assert (H1 : ln 50 + ln 10 = ln (50 * 10)) by (rewrite ln_mult by lra; reflexivity). assert (H2 : ln 100 + ln 8 = ln (100 * 8)) by (rewrite ln_mult by lra; reflexivity).
    assert (H3 : ln (50 * 10) < ln (100 * 8)) by (apply ln_increasing; lra). lra.
Qed.
(** points without any structure and a generator that always gives 1/2: the rule holds for no k *)
Example C70_example_index_error : forall s, fst (optimize_n_clusters zero_gen s (cut4 split_labels) (OArr2 (mkArr 4 4 (fun i j => Fin (equidistant i j)))) 3 "gap" 1) = Raise IndexError.
Proof.
  intros s. assert (HM : is_largest 4 equidistant 1) by (split; [exists 0%nat, 3%nat; repeat split; lia|]; intros i j _ _; unfold equidistant; destruct (Nat.eqb i j); lra).
  destruct (C70_gap zero_gen s (cut4 split_labels) (OArr2 (mkArr 4 4 (fun i j => Fin (equidistant i j)))) 3 1 (fun k => if (k =? 2)%Z then Fin (ln 1 - ln 4) else Fin (ln (1 / 2) - ln 2)) (fun _ => 0)) as (_ & Q & _).
  - intros k Hk. split; [destruct (k =? 2)%Z; exact I|]. assert (k = 2%Z \/ k = 3%Z) as [->| ->] by lia; [exists (map Fin pair_labels)|exists (map Fin split_labels)]; (split; [reflexivity|]); intros s'.
    + rewrite (gap4 s' equidistant 1 pair_labels HM); try lra; try reflexivity; rewrite !pair_within; cbn; try lra. f_equal. f_equal. f_equal. f_equal; [f_equal|f_equal; f_equal]; lra.
    + rewrite (gap4 s' equidistant 1 split_labels HM); try lra; try reflexivity; rewrite !split_within; cbn; try lra. f_equal. f_equal. f_equal. f_equal; [f_equal|f_equal; f_equal]; lra.
  - apply Q. intros k Hk. replace k with 2%Z by lia. unfold gap_rule. cbn [Z.eqb Pos.eqb Z.add Pos.add Pos.add_carry Pos.succ].
    assert (H1 : ln (1 / 2) + ln 4 = ln (1 / 2 * 4)) by (rewrite ln_mult by lra; reflexivity). replace (1 / 2 * 4) with 2 in H1 by field. rewrite ln_1. lra.
Qed.
Lemma front_clusters : clusters front_labels = 3%nat.
Proof.
  unfold clusters, front_labels. cbn [nodup].
  destruct (in_dec Req_EM_T 0 [0; 1; 2]) as [_|Q]; [|exfalso; apply Q; left; reflexivity].
  destruct (in_dec Req_EM_T 0 [1; 2]) as [Q|_]; [exfalso; cbn in Q; intuition lra|].
  destruct (in_dec Req_EM_T 1 [2]) as [Q|_]; [exfalso; cbn in Q; intuition lra|].
  destruct (in_dec Req_EM_T 2 []) as [Q|_]; [destruct Q|]. reflexivity.
Qed.
Lemma front_value : silhouette_tstat (OArr2 (mkArr 4 4 (fun i j => Fin (two_pairs i j)))) (OArr1 (map Fin front_labels)) = Ok (Fin 1).
Proof.
  destruct (C84_value (OArr2 (mkArr 4 4 (fun i j => Fin (two_pairs i j)))) (OArr1 (map Fin front_labels)) 4 two_pairs front_labels) as (v & Hv & ->).
  - exists (mkArr 4 4 (fun i j => Fin (two_pairs i j))). repeat split. left. reflexivity.
  - left. reflexivity.
  - reflexivity.
  - rewrite front_clusters. lia.
  - intros i j _ _. unfold two_pairs. destruct (Nat.eqb i j); [lra|]. destruct (_ && _); [lra|]. destruct (_ && _); lra.
  - intros i _. unfold two_pairs. rewrite Nat.eqb_refl. reflexivity.
  - assert (V : forall i, (i < 4)%nat -> v i = if Nat.ltb i 2 then 9 / 10 else 0).
    { intros i Hi. destruct (Hv i Hi) as (A & B). destruct (Nat.ltb i 2) eqn:E.
      - apply Nat.ltb_lt in E. assert (NA : ~ alone front_labels i).
        { intros Al. destruct i as [|[|i]]; try lia; [specialize (Al 1%nat)|specialize (Al 0%nat)]; cbn in Al; specialize (Al ltac:(lia) eq_refl); discriminate. }
        assert (EO : mean_own front_labels two_pairs i = 1).
        { unfold mean_own, size_of, sumn, label, front_labels. destruct i as [|[|i]]; try lia; cbn [length seq map nth rsum fold_right]; repeat (destruct (Req_EM_T _ _); try lra); cbn; field. }
        assert (NR : nearest front_labels two_pairs i 10).
        { assert (M2 : mean_to front_labels two_pairs i 2 = 10 /\ mean_to front_labels two_pairs i 3 = 10).
          { unfold mean_to, size_of, sumn, label, front_labels. destruct i as [|[|i]]; try lia; cbn [length seq map nth rsum fold_right]; (split; repeat (destruct (Req_EM_T _ _); try lra); cbn; field). }
          split.
          - exists 2%nat. split; [cbn; lia|]. split; [|symmetry; apply M2]. destruct i as [|[|i]]; try lia; cbn; lra.
          - intros c Hc N. cbn in Hc. destruct c as [|[|[|[|c]]]]; try lia; try (destruct M2 as (M2 & M3); lra); exfalso; apply N; destruct i as [|[|i]]; try lia; reflexivity. }
        destruct (B NA 10 NR) as (_ & Q). rewrite EO in Q. rewrite Rmax_right in Q by lra. rewrite Q by lra. field.
      - apply A. apply Nat.ltb_ge in E. intros j Hj Ej. cbn in Hj. destruct i as [|[|[|[|i]]]]; try lia; destruct j as [|[|[|[|j]]]]; try lia; cbn in Ej; lra. }
    assert (EA : avg 4 v = 45 / 100) by (unfold avg, sumn; cbn [seq map rsum fold_right]; rewrite !V by lia; cbn; field).
    assert (ES : spread 4 v = 45 / 100).
    { unfold spread. rewrite EA. unfold avg, sumn. cbn [seq map rsum fold_right]. rewrite !V by lia. cbn [Nat.ltb Nat.leb INR].
      replace (_ / _) with ((45 / 100) * (45 / 100)) by field. apply sqrt_square. lra. }
    unfold tstat. rewrite ES, EA. destruct (Req_EM_T (45 / 100) 0); [lra|]. f_equal. f_equal. field.
Qed.
Example C70_example_silhouette : forall s, optimize_n_clusters zero_gen s (cut4 front_labels) (OArr2 (mkArr 4 4 (fun i j => Fin (two_pairs i j)))) 3 "silhouette" 1 = (Ok 2%Z, s).
Proof.
  intros s. destruct (C70_silhouette zero_gen s (cut4 front_labels) (OArr2 (mkArr 4 4 (fun i j => Fin (two_pairs i j)))) 3 1 (fun k => if (k =? 2)%Z then Fin 17 else Fin 1)) as (k & E & Hk & Hb & _); try lia.
  - intros k Hk. split; [destruct (k =? 2)%Z; discriminate|]. assert (k = 2%Z \/ k = 3%Z) as [->| ->] by lia; [exists (map Fin pair_labels)|exists (map Fin front_labels)]; (split; [reflexivity|]).
    + apply C84_example_value.
    + apply front_value.
  - assert (k = 2%Z \/ k = 3%Z) as [->| ->] by lia; [exact E|]. exfalso. apply (Hb 2%Z); [lia|]. unfold below. cbn. apply rltb_true. lra.
Qed.
Example C70_example_nan : forall s, optimize_n_clusters zero_gen s (cut4 front_labels) (OArr2 (mkArr 4 4 (fun i j => Fin (equidistant i j)))) 2 "silhouette" 1 = (Ok 2%Z, s).
Proof.
  intros s. apply (C70_silhouette_nan_wins zero_gen s (cut4 front_labels) _ 2 1 (fun _ => NaN)); try lia; [|reflexivity].
  intros k Hk. replace k with 2%Z by lia. exists (map Fin pair_labels). split; [reflexivity|]. apply C84_example_nan.
Qed.
Print Assumptions C70_gap.
Print Assumptions C70_gap_range.
Print Assumptions C70_gap_raises.
Print Assumptions C70_published_selects_no_more.
Print Assumptions C70_silhouette.
Print Assumptions C70_silhouette_nan_wins.
Print Assumptions C70_errors.
