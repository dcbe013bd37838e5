(** The silhouette t-statistic (C84). *)
From Coq Require Import Reals Lra String List Arith Lia ZArith Bool.
From Verif Require Import Base Num Sums Sim_Model Dist_Model Feat_Model Cusum_Props Clust_Model Clust_Spec Clust_Gap_Props.
Import ListNotations.
Open Scope R_scope.

Lemma rsum_filter : forall (p : nat -> bool) (f : nat -> R) ls, rsum (map f (filter p ls)) = rsum (map (fun j => if p j then f j else 0) ls).
Proof.
  intros p f ls. unfold rsum. induction ls as [|x ls IH]; [reflexivity|]. cbn [filter map fold_right]. rewrite <- IH. destruct (p x); cbn [map fold_right]; ring.
Qed.
Lemma length_filter : forall (p : nat -> bool) ls, INR (length (filter p ls)) = rsum (map (fun j => if p j then 1 else 0) ls).
Proof.
  intros p ls. rewrite <- (rsum_filter p (fun _ => 1)), rsum_const. ring.
Qed.
Lemma cluster_cond : forall l c j, (c < length l)%nat -> (j < length l)%nat ->
  neqb (Fin (label l c)) (nth j (map Fin l) NaN) = if Req_EM_T (label l c) (label l j) then true else false.
Proof. intros l c j Hc Hj. rewrite nth_fin by exact Hj. cbn [neqb]. reflexivity. Qed.
Lemma cluster_sum : forall l c f, (c < length l)%nat -> rsum (map f (cluster_of (map Fin l) (Fin (label l c)))) = sumn (length l) (fun j => if Req_EM_T (label l c) (label l j) then f j else 0).
Proof.
  intros l c f Hc. unfold cluster_of. rewrite rsum_filter, map_length. unfold sumn. apply rsum_ext. intros j Hj. apply in_seq in Hj.
  rewrite cluster_cond by lia. destruct (Req_EM_T _ _); reflexivity.
Qed.
Lemma cluster_size : forall l c, (c < length l)%nat -> INR (length (cluster_of (map Fin l) (Fin (label l c)))) = size_of l c.
Proof.
  intros l c Hc. unfold cluster_of. rewrite length_filter, map_length. unfold size_of, sumn. apply rsum_ext. intros j Hj. apply in_seq in Hj.
  rewrite cluster_cond by lia. destruct (Req_EM_T _ _); reflexivity.
Qed.
Lemma size_pos : forall l c, (c < length l)%nat -> 1 <= size_of l c.
Proof.
  intros l c Hc. unfold size_of. eapply Rle_trans; [|apply (S_ge_term (length l) _ c Hc)].
  - cbn beta. destruct (Req_EM_T _ _); [lra|contradiction].
  - intros i Hi. cbn beta. destruct (Req_EM_T _ _); lra.
Qed.
Lemma size_alone : forall l i, (i < length l)%nat -> (alone l i <-> length (cluster_of (map Fin l) (Fin (label l i))) = 1%nat).
Proof.
  intros l i Hi. split.
  - intros H. apply INR_eq. rewrite cluster_size by exact Hi. cbn [INR]. unfold size_of. rewrite (S_single _ _ i Hi).
    + destruct (Req_EM_T _ _); [reflexivity|contradiction].
    + intros j Hj Hne. destruct (Req_EM_T _ _) as [e|]; [|reflexivity]. exfalso. apply Hne. apply H; [exact Hj|congruence].
  - intros H j Hj E. unfold cluster_of in H. set (L := filter _ _) in H.
    assert (Ii : In i L) by (unfold L; apply filter_In; split; [apply in_seq; rewrite map_length; lia|rewrite cluster_cond by lia; destruct (Req_EM_T _ _); [reflexivity|contradiction]]).
    assert (Ij : In j L) by (unfold L; apply filter_In; split; [apply in_seq; rewrite map_length; lia|rewrite cluster_cond by lia; destruct (Req_EM_T _ _); [reflexivity|congruence]]).
    destruct L as [|u [|w L]]; cbn in H; try lia. destruct Ii as [->|[]]. destruct Ij as [->|[]]. reflexivity.
Qed.
Lemma mean_dist_fin : forall l a D i c, (forall i j, (i < length l)%nat -> (j < length l)%nat -> at2 a i j = Fin (D i j)) -> (i < length l)%nat -> (c < length l)%nat -> forall m, (1 <= m)%nat ->
  mean_dist a i (cluster_of (map Fin l) (Fin (label l c))) m = Fin (sumn (length l) (fun j => if Req_EM_T (label l c) (label l j) then D i j else 0) / INR m).
Proof.
  intros l a D i c Ha Hi Hc m Hm. unfold mean_dist. rewrite (map_ext_in _ (fun j => Fin (D i j))).
  - rewrite <- map_map, nsum_fin, cluster_sum by exact Hc. unfold nofnat. apply ndiv_fin. apply not_0_INR. lia.
  - intros j Hj. unfold cluster_of in Hj. apply filter_In in Hj. destruct Hj as (Hj & _). apply in_seq in Hj. rewrite map_length in Hj. apply Ha; lia.
Qed.
Lemma fold_min : forall bs, bs <> [] -> exists m, fold_right nmin PInf (map Fin bs) = Fin m /\ In m bs /\ forall b, In b bs -> m <= b.
Proof.
  induction bs as [|b bs IH]; intros H; [congruence|]. destruct bs as [|b' bs].
  - exists b. cbn. repeat split; auto. intros x [->|[]]. lra.
  - destruct (IH ltac:(discriminate)) as (m & E & I & L). cbn [map fold_right] in E |- *. rewrite E. unfold nmin at 1. cbn [is_nan nltb]. unfold rltb. destruct (Rlt_dec m b) as [Q|Q].
    + exists m. split; [reflexivity|]. split; [right; exact I|]. intros x [<-|Hx]; [lra|apply L; exact Hx].
    + exists b. split; [reflexivity|]. split; [left; reflexivity|]. intros x [<-|Hx]; [lra|]. pose proof (L x Hx). lra.
Qed.
Lemma in_label : forall l x, In x l <-> exists c, (c < length l)%nat /\ label l c = x.
Proof.
  intros l x. split.
  - intros H. destruct (In_nth l x 0 H) as (c & Hc & E). exists c. split; [exact Hc|exact E].
  - intros (c & Hc & <-). apply nth_In. exact Hc.
Qed.
Lemma other_cluster : forall l i, (i < length l)%nat -> (2 <= clusters l)%nat -> exists c, (c < length l)%nat /\ label l c <> label l i.
Proof.
  intros l i Hi H. destruct (existsb (fun c => if Req_EM_T (label l c) (label l i) then false else true) (seq 0 (length l))) eqn:E.
  - apply existsb_exists in E. destruct E as (c & Hc & E). apply in_seq in Hc. exists c. split; [lia|]. destruct (Req_EM_T _ _); [discriminate|assumption].
  - exfalso. assert (A : forall c, (c < length l)%nat -> label l c = label l i).
    { intros c Hc. destruct (Req_EM_T (label l c) (label l i)) as [e|n] eqn:Q; [exact e|]. exfalso.
      assert (T : existsb (fun c => if Req_EM_T (label l c) (label l i) then false else true) (seq 0 (length l)) = true); [|congruence].
      apply existsb_exists. exists c. split; [apply in_seq; lia|]. destruct (Req_EM_T _ _); [contradiction|reflexivity]. }
    assert (L : (length (nodup Req_EM_T l) <= length [label l i])%nat).
    { apply NoDup_incl_length; [apply NoDup_nodup|]. intros x Hx. apply nodup_In in Hx. apply in_label in Hx. destruct Hx as (c & Hc & <-). left. symmetry. apply A. exact Hc. }
    unfold clusters in H. cbn in L. lia.
Qed.

(** the inner function of the model *)
Lemma silhouette_of_spec : forall l a D i,
  (forall i j, (i < length l)%nat -> (j < length l)%nat -> at2 a i j = Fin (D i j)) -> (i < length l)%nat -> (2 <= clusters l)%nat ->
  (forall i j, (i < length l)%nat -> (j < length l)%nat -> 0 <= D i j) -> (forall i, (i < length l)%nat -> D i i = 0) ->
  exists v, silhouette_of a (map Fin l) i = Fin v /\ is_silhouette l D i v.
Proof.
  intros l a D i Ha Hi Hk Hnn Hd. unfold silhouette_of. rewrite nth_fin by exact Hi.
  assert (EO : filter (fun x => negb (neqb x (Fin (label l i)))) (nodup num_eq_dec (map Fin l)) = map Fin (filter (fun x => if Req_EM_T x (label l i) then false else true) (nodup Req_EM_T l))).
  { rewrite nodup_fin. generalize (nodup Req_EM_T l). induction l0 as [|x t IH]; [reflexivity|]. cbn [map filter neqb]. unfold reqb at 1. destruct (Req_EM_T x (label l i)); cbn [negb]; rewrite IH; reflexivity. }
  rewrite EO. set (os := filter (fun x => if Req_EM_T x (label l i) then false else true) (nodup Req_EM_T l)).
  assert (InO : forall x, In x os <-> exists c, (c < length l)%nat /\ label l c = x /\ x <> label l i).
  { intros x. unfold os. rewrite filter_In, nodup_In, in_label. split.
    - intros ((c & Hc & E) & Q). exists c. repeat split; auto. destruct (Req_EM_T x (label l i)); [discriminate|assumption].
    - intros (c & Hc & E & N). split; [exists c; auto|]. destruct (Req_EM_T x (label l i)); [contradiction|reflexivity]. }
  assert (EB : exists bs, map (fun x => mean_dist a i (cluster_of (map Fin l) x) (length (cluster_of (map Fin l) x))) (map Fin os) = map Fin bs /\
    forall b, In b bs <-> exists c, (c < length l)%nat /\ label l c <> label l i /\ b = mean_to l D i c).
  { exists (map (fun x => sumn (length l) (fun j => if Req_EM_T x (label l j) then D i j else 0) / INR (length (cluster_of (map Fin l) (Fin x)))) os). split.
    - rewrite !map_map. apply map_ext_in. intros x Hx. apply InO in Hx. destruct Hx as (c & Hc & <- & N). apply mean_dist_fin; auto.
      apply INR_le. rewrite cluster_size by exact Hc. cbn [INR]. apply size_pos; exact Hc.
    - intros b. rewrite in_map_iff. split.
      + intros (x & <- & Hx). apply InO in Hx. destruct Hx as (c & Hc & <- & N). exists c. split; [exact Hc|]. split; [exact N|]. unfold mean_to. rewrite cluster_size by exact Hc. reflexivity.
      + intros (c & Hc & N & ->). exists (label l c). split; [|apply InO; exists c; auto]. unfold mean_to. rewrite cluster_size by exact Hc. reflexivity. }
  destruct EB as (bs & EB & InB). rewrite EB. destruct (other_cluster l i Hi Hk) as (c0 & Hc0 & N0).
  assert (NB : bs <> []).
  { intros E. assert (I0 : In (mean_to l D i c0) bs) by (apply InB; exists c0; auto). rewrite E in I0. destruct I0. }
  destruct (fold_min bs NB) as (b & Eb & Ib & Lb). rewrite Eb.
  assert (NR : nearest l D i b).
  { split; [apply InB; exact Ib|]. intros c Hc N. apply Lb. apply InB. exists c. auto. }
  assert (b0 : 0 <= b).
  { apply InB in Ib. destruct Ib as (c & Hc & _ & ->). unfold mean_to. pose proof (size_pos l c Hc). apply Rmult_le_pos; [|apply Rlt_le, Rinv_0_lt_compat; lra].
    apply S_nonneg. intros j Hj. destruct (Req_EM_T _ _); [apply Hnn; assumption|lra]. }
  assert (UN : forall b', nearest l D i b' -> b' = b).
  { intros b' ((c & Hc & N & ->) & L'). destruct NR as ((c1 & Hc1 & N1 & E1) & L1). apply Rle_antisym; [rewrite E1; apply L'; assumption|apply L1; assumption]. }
  set (cnt := length (cluster_of (map Fin l) (Fin (label l i)))). destruct (Nat.eq_dec cnt 1) as [C1|C1].
  - exists 0. split.
    + rewrite C1. change (1 - 1)%nat with 0%nat. unfold mean_dist, nofnat. rewrite (map_ext_in _ (fun j => Fin (D i j))).
      * rewrite <- map_map, nsum_fin, cluster_sum by exact Hi.
        assert (Z0 : sumn (length l) (fun j => if Req_EM_T (label l i) (label l j) then D i j else 0) = 0).
        { rewrite (S_ext _ _ (fun _ => 0)); [apply S_zero|]. intros j Hj. destruct (Req_EM_T _ _) as [e|]; [|reflexivity].
          assert (j = i) as -> by (apply (proj2 (size_alone l i Hi) C1); auto). apply Hd; exact Hi. }
        rewrite Z0. cbn [INR ndiv]. rewrite (proj2 (reqb_true 0 0) eq_refl). unfold sgn_inf. rewrite (proj2 (rltb_false 0 0)) by lra. cbn. reflexivity.
      * intros j Hj. unfold cluster_of in Hj. apply filter_In in Hj. destruct Hj as (Hj & _). apply in_seq in Hj. rewrite map_length in Hj. apply Ha; lia.
    + split; [reflexivity|]. intros NA. exfalso. apply NA. apply (size_alone l i Hi). exact C1.
  - assert (C2 : (1 <= cnt - 1)%nat).
    { assert (1 <= cnt)%nat; [|lia]. apply INR_le. unfold cnt. rewrite cluster_size by exact Hi. cbn [INR]. apply size_pos; exact Hi. }
    rewrite (mean_dist_fin l a D i i Ha Hi Hi _ C2). assert (EC : INR (cnt - 1) = size_of l i - 1) by (rewrite minus_INR by lia; unfold cnt; rewrite cluster_size by exact Hi; reflexivity).
    rewrite EC. fold (mean_own l D i). set (o := mean_own l D i).
    assert (o0 : 0 <= o).
    { unfold o, mean_own. rewrite <- EC. assert (0 < INR (cnt - 1)) by (apply lt_0_INR; lia). apply Rmult_le_pos; [|apply Rlt_le, Rinv_0_lt_compat; lra].
      apply S_nonneg. intros j Hj. destruct (Req_EM_T _ _); [apply Hnn; assumption|lra]. }
    assert (EM : nmax (Fin o) (Fin b) = Fin (Rmax o b)).
    { unfold nmax. cbn [is_nan nltb]. unfold rltb, Rmax. destruct (Rlt_dec o b), (Rle_dec o b); try reflexivity; try lra. f_equal. lra. }
    rewrite EM, nsub_fin. destruct (Req_EM_T (Rmax o b) 0) as [Z0|NZ].
    + exists 0. split.
      * assert (b - o = 0) as -> by (pose proof (Rmax_l o b); pose proof (Rmax_r o b); lra). rewrite Z0. cbn [ndiv]. rewrite (proj2 (reqb_true 0 0) eq_refl).
        unfold sgn_inf. rewrite (proj2 (rltb_false 0 0)) by lra. reflexivity.
      * split; [reflexivity|]. intros _ b' Hb'. rewrite (UN b' Hb'). split; [reflexivity|]. intros; contradiction.
    + exists ((b - o) / Rmax o b). split.
      * rewrite ndiv_fin by exact NZ. reflexivity.
      * split; [intros A; exfalso; apply C1; apply (size_alone l i Hi); exact A|]. intros _ b' Hb'. rewrite (UN b' Hb'). split; [intros; contradiction|reflexivity].
Qed.
Lemma nearest_exists : forall l D i, (i < length l)%nat -> (2 <= clusters l)%nat -> exists b, nearest l D i b.
Proof.
  intros l D i Hi Hk. set (cs := filter (fun c => if Req_EM_T (label l c) (label l i) then false else true) (seq 0 (length l))).
  assert (Ic : forall c, In c cs <-> (c < length l)%nat /\ label l c <> label l i).
  { intros c. unfold cs. rewrite filter_In, in_seq. destruct (Req_EM_T (label l c) (label l i)); split; intros (A & B); try discriminate; try contradiction; split; auto; lia. }
  destruct (other_cluster l i Hi Hk) as (c0 & Hc0 & N0). destruct (fold_min (map (mean_to l D i) cs)) as (m & _ & I & L).
  - assert (In c0 cs) as I0 by (apply Ic; auto). destruct cs; [destruct I0|discriminate].
  - exists m. apply in_map_iff in I. destruct I as (c & <- & Hc). apply Ic in Hc. destruct Hc as (Hc & N). split; [exists c; auto|].
    intros c' Hc' N'. apply L. apply in_map_iff. exists c'. split; [reflexivity|]. apply Ic. auto.
Qed.
Lemma alone_dec : forall l i, (i < length l)%nat -> alone l i \/ ~ alone l i.
Proof.
  intros l i Hi. destruct (Nat.eq_dec (length (cluster_of (map Fin l) (Fin (label l i)))) 1) as [E|E]; [left|right]; rewrite (size_alone l i Hi); exact E.
Qed.
(** a point has one silhouette *)
Lemma silhouette_unique : forall l D i v v', (i < length l)%nat -> (2 <= clusters l)%nat -> is_silhouette l D i v -> is_silhouette l D i v' -> v = v'.
Proof.
  intros l D i v v' Hi Hk (A1 & B1) (A2 & B2). destruct (alone_dec l i Hi) as [A|A]; [rewrite (A1 A), (A2 A); reflexivity|].
  destruct (nearest_exists l D i Hi Hk) as (b & Hb). destruct (B1 A b Hb) as (P1 & Q1). destruct (B2 A b Hb) as (P2 & Q2).
  destruct (Req_dec (Rmax (mean_own l D i) b) 0) as [Z0|NZ]; [rewrite (P1 Z0), (P2 Z0)|rewrite (Q1 NZ), (Q2 NZ)]; reflexivity.
Qed.

(** ** Value *)
(** For nonnegative distances with a zero diagonal and 2 .. n-1 clusters the result is the mean of the silhouettes over their population
    standard deviation. *)
Theorem C84_value : forall x y n D l,
  holds_matrix x n D -> holds_labels y l -> length l = n -> (2 <= clusters l < n)%nat ->
  (forall i j, (i < n)%nat -> (j < n)%nat -> 0 <= D i j) -> (forall i, (i < n)%nat -> D i i = 0) ->
  exists v, (forall i, (i < n)%nat -> is_silhouette l D i (v i)) /\ silhouette_tstat x y = Ok (tstat n v).
Proof.
  intros x y n D l Hx Hy El Hk Hnn Hd. destruct (metric_inputs_ok x y n D l Hx Hy El ltac:(lia)) as (a & E1 & Hr & Hc & Ha).
  assert (HS : forall i, exists v, (i < n)%nat -> silhouette_of a (map Fin l) i = Fin v /\ is_silhouette l D i v).
  { intros i. destruct (lt_dec i n) as [Hi|Hi]; [|exists 0; intros; contradiction].
    destruct (silhouette_of_spec l a D i) as (v & A & B); try (rewrite El; assumption); try lia. exists v. auto. }
  assert (HV : exists v : nat -> R, forall i, (i < n)%nat -> silhouette_of a (map Fin l) i = Fin (v i) /\ is_silhouette l D i (v i)).
  { exists (fun i => match silhouette_of a (map Fin l) i with Fin r => r | _ => 0 end). intros i Hi. destruct (HS i) as (v & Q). destruct (Q Hi) as (A & B). rewrite A. auto. }
  destruct HV as (v & HV). exists v. split; [intros i Hi; apply HV; exact Hi|]. unfold silhouette_tstat. rewrite E1. cbn [bind fst snd].
  assert (ES : silhouette_samples a (map Fin l) = Ok (map Fin (map v (seq 0 n)))).
  { unfold silhouette_samples. rewrite Hr, Hc.
    replace (forallb (fun i => forallb (fun j => is_fin (at2 a i j)) (seq 0 n)) (seq 0 n)) with true.
    2: { symmetry. apply forallb_forall. intros i Hi. apply forallb_forall. intros j Hj. apply in_seq in Hi. apply in_seq in Hj. rewrite Ha by lia. reflexivity. }
    replace (forallb is_fin (map Fin l)) with true.
    2: { symmetry. apply forallb_forall. intros z Hz. apply in_map_iff in Hz. destruct Hz as (w & <- & _). reflexivity. }
    rewrite Nat.eqb_refl. cbn [negb].
    replace (existsb (fun i => ngtb (nabs (at2 a i i)) (Fin (100 / 2 ^ 52))) (seq 0 n)) with false.
    2: { symmetry. apply not_true_is_false. intros T. apply existsb_exists in T. destruct T as (i & Hi & T). apply in_seq in Hi. rewrite Ha, Hd in T by lia.
         unfold ngtb in T. cbn [nabs nltb] in T. apply rltb_true in T. rewrite Rabs_R0 in T. assert (0 < 100 / 2 ^ 52) by (apply Rdiv_lt_0_compat; [lra|apply pow_lt; lra]). lra. }
    rewrite n_unique_fin. replace (1 <? clusters l)%nat with true by (symmetry; apply Nat.ltb_lt; lia). replace (clusters l <? n)%nat with true by (symmetry; apply Nat.ltb_lt; lia).
    cbn [andb negb]. f_equal. rewrite map_map. apply map_ext_in. intros i Hi. apply in_seq in Hi. apply HV. lia. }
  rewrite ES. cbn [bind]. rewrite nmean_fin by (destruct n; [lia|discriminate]). rewrite nstd_fin by (rewrite map_length, seq_length; lia).
  assert (EA : rmean (map v (seq 0 n)) = avg n v) by (unfold rmean, avg, sumn; rewrite map_length, seq_length; reflexivity).
  assert (EV : sqrt (rvar 0 (map v (seq 0 n))) = spread n v).
  { unfold spread, rvar, avg at 1. f_equal. rewrite map_length, seq_length, Nat.sub_0_r. f_equal. rewrite map_map, EA. reflexivity. }
  rewrite EA, EV. unfold tstat. destruct (Req_EM_T (spread n v) 0) as [Z0|NZ].
  - rewrite Z0. cbn [ndiv]. rewrite (proj2 (reqb_true 0 0) eq_refl). unfold sgn_inf, rltb. destruct (Rlt_dec 0 (avg n v)); [reflexivity|]. destruct (Rlt_dec (avg n v) 0); reflexivity.
  - rewrite ndiv_fin by exact NZ. reflexivity.
Qed.

(** Each silhouette is between -1 and 1. *)
Theorem C84_range : forall n D l i v, length l = n -> (2 <= clusters l)%nat -> (i < n)%nat ->
  (forall i j, (i < n)%nat -> (j < n)%nat -> 0 <= D i j) -> is_silhouette l D i v -> -1 <= v <= 1.
Proof.
  intros n D l i v El Hk Hi Hnn (A & B). rewrite <- El in Hi. destruct (alone_dec l i Hi) as [Al|NA]; [rewrite (A Al); lra|].
  destruct (nearest_exists l D i Hi Hk) as (b & Hb). destruct (B NA b Hb) as (P & Q).
  assert (b0 : 0 <= b).
  { destruct Hb as ((c & Hc & _ & ->) & _). unfold mean_to. pose proof (size_pos l c Hc). apply Rmult_le_pos; [|apply Rlt_le, Rinv_0_lt_compat; lra].
    apply S_nonneg. intros j Hj. destruct (Req_EM_T _ _); [apply Hnn; lia|lra]. }
  assert (o0 : 0 <= mean_own l D i).
  { unfold mean_own. destruct (Req_dec (size_of l i - 1) 0) as [Z0|NZ].
    - exfalso. apply NA. apply (size_alone l i Hi). apply INR_eq. rewrite cluster_size by exact Hi. cbn [INR]. lra.
    - pose proof (size_pos l i Hi). apply Rmult_le_pos; [|apply Rlt_le, Rinv_0_lt_compat; lra]. apply S_nonneg. intros j Hj. destruct (Req_EM_T _ _); [apply Hnn; lia|lra]. }
  set (o := mean_own l D i) in *. destruct (Req_dec (Rmax o b) 0) as [Z0|NZ]; [rewrite (P Z0); lra|]. rewrite (Q NZ).
  assert (PM : 0 < Rmax o b) by (pose proof (Rmax_l o b); lra). pose proof (Rmax_l o b). pose proof (Rmax_r o b).
  split; apply (Rmult_le_reg_r (Rmax o b)); try exact PM; unfold Rdiv; rewrite ?Rmult_assoc, ?(Rinv_l (Rmax o b)) by lra; lra.
Qed.

(** ** Invariances *)
Lemma size_same : forall l l' i, same_partition l l' -> (i < length l)%nat -> size_of l i = size_of l' i.
Proof.
  intros l l' i (E & H) Hi. unfold size_of. rewrite <- E. apply S_ext. intros j Hj. specialize (H i j Hi Hj). destruct (Req_EM_T (label l i) (label l j)), (Req_EM_T (label l' i) (label l' j)); tauto.
Qed.
Lemma member_same : forall l l' i f, same_partition l l' -> (i < length l)%nat -> sumn (length l) (fun j => if Req_EM_T (label l i) (label l j) then f j else 0) = sumn (length l') (fun j => if Req_EM_T (label l' i) (label l' j) then f j else 0).
Proof.
  intros l l' i f (E & H) Hi. rewrite <- E. apply S_ext. intros j Hj. specialize (H i j Hi Hj). destruct (Req_EM_T (label l i) (label l j)), (Req_EM_T (label l' i) (label l' j)); tauto.
Qed.
Lemma nearest_same : forall l l' D i b, same_partition l l' -> (i < length l)%nat -> nearest l D i b -> nearest l' D i b.
Proof.
  intros l l' D i b H Hi ((c & Hc & N & Eb) & L). pose proof H as (E & HP).
  assert (EM : forall c, (c < length l)%nat -> mean_to l' D i c = mean_to l D i c) by (intros c' Hc'; unfold mean_to; rewrite (size_same l l' c' H Hc'), (member_same l l' c' (D i) H Hc'); reflexivity).
  split.
  - exists c. split; [lia|]. split; [intros Q; apply N; apply (HP c i); auto|]. rewrite EM by exact Hc. exact Eb.
  - intros c' Hc' N'. rewrite EM by lia. apply L; [lia|]. intros Q. apply N'. apply (HP c' i); [lia|exact Hi|exact Q].
Qed.
Lemma silhouette_same : forall l l' D i v, same_partition l l' -> (i < length l)%nat -> is_silhouette l D i v -> is_silhouette l' D i v.
Proof.
  intros l l' D i v H Hi (A & B). pose proof H as (E & HP). assert (AL : alone l i <-> alone l' i).
  { unfold alone. rewrite <- E. split; intros Q j Hj Ej; apply Q; auto; apply (HP j i Hj Hi); exact Ej. }
  assert (EO : mean_own l' D i = mean_own l D i) by (unfold mean_own; rewrite (size_same l l' i H Hi), (member_same l l' i (D i) H Hi); reflexivity).
  split; [intros Q; apply A; apply AL; exact Q|]. intros NA b Hb. rewrite EO. apply B; [intros Q; apply NA; apply AL; exact Q|].
  apply (nearest_same l' l); [apply same_partition_sym; exact H|lia|exact Hb].
Qed.
Lemma tstat_ext : forall n v w, (forall i, (i < n)%nat -> v i = w i) -> tstat n v = tstat n w.
Proof. intros n v w H. unfold tstat. rewrite (avg_ext n v w H), (spread_ext n v w H). reflexivity. Qed.

(** The t-statistic depends only on the partition, not on the values of the labels. *)
Theorem C84_partition_only : forall x y y' n D l l',
  holds_matrix x n D -> holds_labels y l -> holds_labels y' l' -> same_partition l l' -> length l = n -> (2 <= clusters l < n)%nat ->
  (forall i j, (i < n)%nat -> (j < n)%nat -> 0 <= D i j) -> (forall i, (i < n)%nat -> D i i = 0) ->
  silhouette_tstat x y = silhouette_tstat x y'.
Proof.
  intros x y y' n D l l' Hx Hy Hy' HP El Hk Hnn Hd. pose proof HP as (E & _).
  destruct (C84_value x y n D l Hx Hy El Hk Hnn Hd) as (v & Hv & ->).
  destruct (C84_value x y' n D l' Hx Hy' ltac:(congruence) ltac:(rewrite <- (clusters_same l l' HP); exact Hk) Hnn Hd) as (w & Hw & ->).
  f_equal. apply tstat_ext. intros i Hi. apply (silhouette_unique l' D i).
  - lia.
  - rewrite <- (clusters_same l l' HP). lia.
  - apply (silhouette_same l); [exact HP|lia|apply Hv; exact Hi].
  - apply Hw; exact Hi.
Qed.

Lemma nearest_scal : forall l D c i b, 0 < c -> nearest l D i b -> nearest l (fun i j => c * D i j) i (c * b).
Proof.
  intros l D c i b Hc ((k & Hk & N & Eb) & L).
  assert (EM : forall k, mean_to l (fun i j => c * D i j) i k = c * mean_to l D i k).
  { intros k'. unfold mean_to, Rdiv. rewrite <- Rmult_assoc, <- S_scal. f_equal. apply S_ext. intros j Hj. destruct (Req_EM_T _ _); ring. }
  split; [exists k; rewrite EM; repeat split; congruence|]. intros k' Hk' N'. rewrite EM. apply Rmult_le_compat_l; [lra|apply L; assumption].
Qed.
Lemma silhouette_scal : forall l D c i v, 0 < c -> (i < length l)%nat -> (2 <= clusters l)%nat -> is_silhouette l D i v -> is_silhouette l (fun i j => c * D i j) i v.
Proof.
  intros l D c i v Hc Hi Hk (A & B). split; [exact A|]. intros NA b' Hb'. destruct (nearest_exists l D i Hi Hk) as (b & Hb). destruct (B NA b Hb) as (P & Q).
  assert (Eb : b' = c * b).
  { pose proof (nearest_scal l D c i b Hc Hb) as ((k1 & K1 & N1 & E1) & L1). destruct Hb' as ((k2 & K2 & N2 & E2) & L2). apply Rle_antisym; [rewrite E1; apply L2; assumption|rewrite E2; apply L1; assumption]. }
  assert (EO : mean_own l (fun i j => c * D i j) i = c * mean_own l D i).
  { unfold mean_own, Rdiv. rewrite <- Rmult_assoc, <- S_scal. f_equal. apply S_ext. intros j Hj. destruct (Req_EM_T _ _); ring. }
  rewrite Eb, EO. assert (EX : Rmax (c * mean_own l D i) (c * b) = c * Rmax (mean_own l D i) b) by (apply RmaxRmult; lra). rewrite EX. split.
  - intros Z0. apply P. apply Rmult_integral in Z0. destruct Z0; lra.
  - intros NZ. assert (NZ' : Rmax (mean_own l D i) b <> 0) by (intros Z0; apply NZ; rewrite Z0; ring). rewrite (Q NZ'). field. split; lra.
Qed.
(** Nor does it depend on the unit of the distances. *)
Theorem C84_scale : forall x x' y n D l c,
  holds_matrix x n D -> holds_matrix x' n (fun i j => c * D i j) -> holds_labels y l -> length l = n -> (2 <= clusters l < n)%nat -> 0 < c ->
  (forall i j, (i < n)%nat -> (j < n)%nat -> 0 <= D i j) -> (forall i, (i < n)%nat -> D i i = 0) ->
  silhouette_tstat x' y = silhouette_tstat x y.
Proof.
  intros x x' y n D l c Hx Hx' Hy El Hk Hc Hnn Hd.
  destruct (C84_value x y n D l Hx Hy El Hk Hnn Hd) as (v & Hv & ->).
  destruct (C84_value x' y n _ l Hx' Hy El Hk) as (w & Hw & ->).
  - intros i j Hi Hj. apply Rmult_le_pos; [lra|apply Hnn; assumption].
  - intros i Hi. rewrite (Hd i Hi). ring.
  - f_equal. apply tstat_ext. intros i Hi. apply (silhouette_unique l (fun i j => c * D i j) i); [lia|lia|apply Hw; exact Hi|].
    apply silhouette_scal; [exact Hc|lia|lia|apply Hv; exact Hi].
Qed.
(** One cluster only, or as many clusters as points, is a ValueError. *)
Theorem C84_errors : forall x y n D l,
  holds_matrix x n D -> holds_labels y l -> length l = n -> (2 <= n)%nat -> (forall i, (i < n)%nat -> D i i = 0) ->
  (clusters l < 2 \/ clusters l = n)%nat -> silhouette_tstat x y = Raise ValueError.
Proof.
  intros x y n D l Hx Hy El Hn Hd Hk. destruct (metric_inputs_ok x y n D l Hx Hy El Hn) as (a & E1 & Hr & Hc & Ha). unfold silhouette_tstat. rewrite E1. cbn [bind fst snd].
  assert (E : silhouette_samples a (map Fin l) = Raise ValueError); [|rewrite E; reflexivity]. unfold silhouette_samples.
  destruct (negb _); [reflexivity|]. destruct (negb _); [reflexivity|]. destruct (negb _); [reflexivity|]. destruct (existsb _ _); [reflexivity|]. rewrite n_unique_fin, Hr.
  replace ((1 <? clusters l) && (clusters l <? n))%nat%bool with false; [reflexivity|]. symmetry. apply andb_false_iff.
  destruct Hk as [H|H]; [left; apply Nat.ltb_ge; lia|right; apply Nat.ltb_ge; lia].
Qed.

(** ** Cases that meet the hypotheses *)
(** two pairs of points, at distance 1 and 2, with distance 10 between the pairs: silhouettes 0.9, 0.9, 0.8, 0.8, t-statistic 17 *)
Definition two_pairs (i j : nat) : R :=
  if Nat.eqb i j then 0 else if Nat.ltb i 2 && Nat.ltb j 2 then 1 else if Nat.leb 2 i && Nat.leb 2 j then 2 else 10.
Definition pair_labels : list R := [0; 0; 1; 1].
Lemma pair_sums : forall f c, (c < 4)%nat -> sumn (length pair_labels) (fun j => if Req_EM_T (label pair_labels c) (label pair_labels j) then f j else 0) =
  if Nat.ltb c 2 then f 0%nat + f 1%nat else f 2%nat + f 3%nat.
Proof.
  intros f c Hc. unfold sumn, label, pair_labels. do 4 (destruct c as [|c]; [cbn [length seq map nth rsum fold_right Nat.ltb Nat.leb]; repeat (destruct (Req_EM_T _ _); try lra)|]). lia.
Qed.
Lemma pair_size : forall c, (c < 4)%nat -> size_of pair_labels c = 2.
Proof. intros c Hc. unfold size_of. rewrite (pair_sums (fun _ => 1) c Hc). destruct (Nat.ltb c 2); lra. Qed.
Lemma pair_clusters : clusters pair_labels = 2%nat.
Proof.
  unfold clusters, pair_labels. cbn [nodup].
  destruct (in_dec Req_EM_T 0 [0; 1; 1]) as [_|Q]; [|exfalso; apply Q; left; reflexivity].
  destruct (in_dec Req_EM_T 0 [1; 1]) as [Q|_]; [exfalso; cbn in Q; intuition lra|].
  destruct (in_dec Req_EM_T 1 [1]) as [_|Q]; [|exfalso; apply Q; left; reflexivity].
  destruct (in_dec Req_EM_T 1 []) as [Q|_]; [destruct Q|]. reflexivity.
Qed.
Lemma pair_silhouette : forall D i, (i < 4)%nat -> (forall v, is_silhouette pair_labels D i v -> Rmax (D i 0%nat + D i 1%nat) (D i 2%nat + D i 3%nat) >= 0 ->
  let a := if Nat.ltb i 2 then D i 0%nat + D i 1%nat else D i 2%nat + D i 3%nat in
  let b := if Nat.ltb i 2 then (D i 2%nat + D i 3%nat) / 2 else (D i 0%nat + D i 1%nat) / 2 in
  (Rmax a b = 0 -> v = 0) /\ (Rmax a b <> 0 -> v = (b - a) / Rmax a b)).
Proof.
  intros D i Hi v (_ & B) _ a b. assert (NA : ~ alone pair_labels i).
  { intros A. destruct i as [|[|[|[|i]]]]; try lia; [specialize (A 1%nat)|specialize (A 0%nat)|specialize (A 3%nat)|specialize (A 2%nat)]; cbn in A; specialize (A ltac:(lia) eq_refl); discriminate. }
  assert (EO : mean_own pair_labels D i = a).
  { unfold mean_own. rewrite (pair_sums (D i) i Hi), (pair_size i Hi). unfold a. destruct (Nat.ltb i 2); field. }
  assert (ET : forall c, (c < 4)%nat -> mean_to pair_labels D i c = (if Nat.ltb c 2 then D i 0%nat + D i 1%nat else D i 2%nat + D i 3%nat) / 2).
  { intros c Hc. unfold mean_to. rewrite (pair_sums (D i) c Hc), (pair_size c Hc). reflexivity. }
  assert (LB : forall c, (c < 4)%nat -> label pair_labels c = if Nat.ltb c 2 then 0 else 1) by (intros c Hc; destruct c as [|[|[|[|c]]]]; try lia; reflexivity).
  assert (NR : nearest pair_labels D i b).
  { split.
    - exists (if Nat.ltb i 2 then 2%nat else 0%nat). destruct (Nat.ltb i 2) eqn:E; (split; [cbn; lia|]; split; [rewrite !LB by (cbn; lia); rewrite E; cbn; lra|]; rewrite ET by lia; reflexivity).
    - intros c Hc N. cbn in Hc. rewrite !LB in N by lia. rewrite ET by lia. unfold b. destruct (Nat.ltb c 2), (Nat.ltb i 2); lra. }
  rewrite <- EO. apply (B NA b NR).
Qed.
Example C84_example_value : silhouette_tstat (OArr2 (mkArr 4 4 (fun i j => Fin (two_pairs i j)))) (OArr1 (map Fin pair_labels)) = Ok (Fin 17).
Proof.
  destruct (C84_value (OArr2 (mkArr 4 4 (fun i j => Fin (two_pairs i j)))) (OArr1 (map Fin pair_labels)) 4 two_pairs pair_labels) as (v & Hv & ->).
  - exists (mkArr 4 4 (fun i j => Fin (two_pairs i j))). repeat split. left. reflexivity.
  - left. reflexivity.
  - reflexivity.
  - rewrite pair_clusters. lia.
  - intros i j _ _. unfold two_pairs. destruct (Nat.eqb i j); [lra|]. destruct (_ && _); [lra|]. destruct (_ && _); lra.
  - intros i _. unfold two_pairs. rewrite Nat.eqb_refl. reflexivity.
  - assert (V : forall i, (i < 4)%nat -> v i = if Nat.ltb i 2 then 9 / 10 else 8 / 10).
    { intros i Hi. pose proof (pair_silhouette two_pairs i Hi (v i) (Hv i Hi)) as Q. cbv zeta in Q. destruct i as [|[|[|[|i]]]]; try lia; cbn in Q |- *;
      (destruct Q as (_ & Q); [apply Rle_ge; eapply Rle_trans; [|apply Rmax_l]; lra|]); rewrite Rmax_right in Q by lra; rewrite Q by lra; field. }
    assert (EA : avg 4 v = 85 / 100) by (unfold avg, sumn; cbn [seq map rsum fold_right]; rewrite !V by lia; cbn; field).
    assert (ES : spread 4 v = 5 / 100).
    { unfold spread. rewrite EA. unfold avg, sumn. cbn [seq map rsum fold_right]. rewrite !V by lia. cbn [Nat.ltb Nat.leb INR].
      replace (_ / _) with ((5 / 100) * (5 / 100)) by field. apply sqrt_square. lra. }
    unfold tstat. rewrite ES, EA. destruct (Req_EM_T (5 / 100) 0); [lra|]. f_equal. f_equal. field.
Qed.
(** four points at distance 1 from each other, in two pairs: all silhouettes are 0 and the t-statistic is NaN *)
Definition equidistant (i j : nat) : R := if Nat.eqb i j then 0 else 1.
Example C84_example_nan : silhouette_tstat (OArr2 (mkArr 4 4 (fun i j => Fin (equidistant i j)))) (OArr1 (map Fin pair_labels)) = Ok NaN.
Proof.
  destruct (C84_value (OArr2 (mkArr 4 4 (fun i j => Fin (equidistant i j)))) (OArr1 (map Fin pair_labels)) 4 equidistant pair_labels) as (v & Hv & ->).
  - exists (mkArr 4 4 (fun i j => Fin (equidistant i j))). repeat split. left. reflexivity.
  - left. reflexivity.
  - reflexivity.
  - rewrite pair_clusters. lia.
  - intros i j _ _. unfold equidistant. destruct (Nat.eqb i j); lra.
  - intros i _. unfold equidistant. rewrite Nat.eqb_refl. reflexivity.
  - assert (V : forall i, (i < 4)%nat -> v i = 0).
    { intros i Hi. pose proof (pair_silhouette equidistant i Hi (v i) (Hv i Hi)) as Q. cbv zeta in Q. destruct i as [|[|[|[|i]]]]; try lia; cbn in Q |- *;
      (destruct Q as (_ & Q); [apply Rle_ge; eapply Rle_trans; [|apply Rmax_l]; lra|]); rewrite Rmax_right in Q by lra; rewrite Q by lra; field. }
    rewrite (tstat_ext 4 v (fun _ => 0)) by exact V. unfold tstat. assert (EA : avg 4 (fun _ => 0) = 0) by (unfold avg; rewrite S_zero; unfold Rdiv; ring).
    assert (ES : spread 4 (fun _ => 0) = 0) by (unfold spread; rewrite EA; rewrite (avg_ext 4 _ (fun _ => 0)) by (intros; ring); rewrite EA; apply sqrt_0).
    rewrite ES, EA. destruct (Req_EM_T 0 0); [|contradiction]. destruct (Rlt_dec 0 0); [lra|reflexivity].
Qed.
Print Assumptions C84_value.
Print Assumptions C84_range.
Print Assumptions C84_partition_only.
Print Assumptions C84_scale.
Print Assumptions C84_errors.
