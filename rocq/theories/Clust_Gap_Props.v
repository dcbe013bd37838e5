(** The gap statistic (C69). *)
From Coq Require Import Reals Lra String List Arith Lia ZArith Bool.
From Verif Require Import Base Num Sums Sim_Model Dist_Model Feat_Model Cusum_Props Clust_Model Clust_Spec.
Import ListNotations.
Open Scope R_scope.

(** ** sums and maxima over a two-dimensional array *)
Lemma flat_fin : forall (f : nat -> nat -> num) (g : nat -> nat -> R) is js, (forall i j, In i is -> In j js -> f i j = Fin (g i j)) ->
  flat_map (fun i => map (f i) js) is = map Fin (flat_map (fun i => map (g i) js) is).
Proof.
  intros f g is js H. induction is as [|i is IH]; [reflexivity|]. cbn [flat_map]. rewrite map_app, <- IH.
  - f_equal. rewrite map_map. apply map_ext_in. intros j Hj. apply H; [left; reflexivity|exact Hj].
  - intros i' j Hi Hj. apply H; [right; exact Hi|exact Hj].
Qed.
Lemma rsum_flat : forall (g : nat -> nat -> R) is js, rsum (flat_map (fun i => map (g i) js) is) = rsum (map (fun i => rsum (map (g i) js)) is).
Proof. intros g is js. induction is as [|i is IH]; [reflexivity|]. cbn [flat_map map]. rewrite rsum_app, IH. reflexivity. Qed.
Lemma np_sum2_fin : forall a g, (forall i j, (i < nrow a)%nat -> (j < ncol a)%nat -> at2 a i j = Fin (g i j)) ->
  np_sum2 a = Fin (sumn (nrow a) (fun i => sumn (ncol a) (g i))).
Proof.
  intros a g H. unfold np_sum2. rewrite (flat_fin _ g).
  - rewrite nsum_fin, rsum_flat. reflexivity.
  - intros i j Hi Hj. apply in_seq in Hi. apply in_seq in Hj. apply H; lia.
Qed.
Lemma np_max2_fin : forall a g M, is_largest (nrow a) g M -> nrow a = ncol a -> (forall i j, (i < nrow a)%nat -> (j < ncol a)%nat -> at2 a i j = Fin (g i j)) ->
  np_max2 a = Fin M.
Proof.
  intros a g M ((i0 & j0 & Hi0 & Hj0 & E0) & HM) Hsq H. unfold np_max2. rewrite (flat_fin _ g).
  2: { intros i j Hi Hj. apply in_seq in Hi. apply in_seq in Hj. apply H; lia. }
  set (L := flat_map (fun i => map (g i) (seq 0 (ncol a))) (seq 0 (nrow a))).
  assert (InL : forall x, In x L <-> exists i j, (i < nrow a)%nat /\ (j < ncol a)%nat /\ g i j = x).
  { intros x. unfold L. rewrite in_flat_map. split.
    - intros (i & Hi & Hx). apply in_map_iff in Hx. destruct Hx as (j & Ej & Hj). apply in_seq in Hi. apply in_seq in Hj. exists i, j. repeat split; try lia. exact Ej.
    - intros (i & j & Hi & Hj & Ex). exists i. split; [apply in_seq; lia|]. apply in_map_iff. exists j. split; [exact Ex|apply in_seq; lia]. }
  assert (InM : In M L) by (apply InL; exists i0, j0; repeat split; try lia; exact E0).
  assert (NE : L <> []) by (intros E; rewrite E in InM; destruct InM).
  destruct (argmax_fin L NE) as (K1 & K2 & _). unfold np_amax. set (k := argmax (map Fin L)) in *.
  rewrite (nth_indep _ NaN (Fin 0)) by (rewrite map_length; exact K1). rewrite (map_nth Fin L 0 k). f_equal. apply Rle_antisym.
  - assert (Ik : In (nth k L 0) L) by (apply nth_In; exact K1). apply InL in Ik. destruct Ik as (i & j & Hi & Hj & <-). apply HM; lia.
  - destruct (In_nth L M 0 InM) as (m & Hm & <-). apply K2; exact Hm.
Qed.

(** ** labels *)
Lemma nth_fin : forall l i, (i < length l)%nat -> nth i (map Fin l) NaN = Fin (label l i).
Proof. intros l i H. rewrite (nth_indep _ NaN (Fin 0)) by (rewrite map_length; exact H). apply (map_nth Fin). Qed.
Lemma identifier_fin : forall l i j, (i < length l)%nat -> (j < length l)%nat ->
  identifier (map Fin l) i j = Fin (if Req_EM_T (label l i) (label l j) then 1 else 0).
Proof. intros l i j Hi Hj. unfold identifier. rewrite !nth_fin by assumption. cbn [neqb]. unfold reqb. destruct (Req_EM_T _ _); reflexivity. Qed.
Lemma in_map_Fin : forall l x, In (Fin x) (map Fin l) <-> In x l.
Proof. intros l x. rewrite in_map_iff. split; [intros (y & E & H); injection E as ->; exact H|intros H; exists x; split; [reflexivity|exact H]]. Qed.
Lemma nodup_fin : forall l, nodup num_eq_dec (map Fin l) = map Fin (nodup Req_EM_T l).
Proof.
  induction l as [|x l IH]; [reflexivity|]. cbn [map nodup].
  destruct (in_dec num_eq_dec (Fin x) (map Fin l)) as [H|H], (in_dec Req_EM_T x l) as [H'|H']; rewrite ?IH; try reflexivity.
  - apply in_map_Fin in H. tauto.
  - exfalso. apply H. apply in_map_Fin. exact H'.
Qed.
Lemma n_unique_fin : forall l, n_unique (map Fin l) = clusters l.
Proof. intros l. unfold n_unique, clusters. rewrite nodup_fin, map_length. reflexivity. Qed.
Lemma clusters_pos : forall l, l <> [] -> (1 <= clusters l)%nat.
Proof.
  intros l H. unfold clusters. destruct l as [|x l]; [congruence|]. assert (In x (nodup Req_EM_T (x :: l))) as I by (apply nodup_In; left; reflexivity).
  destruct (nodup Req_EM_T (x :: l)); [destruct I|cbn; lia].
Qed.

(** ** dispersions *)
Lemma dispersion_fin : forall l a g, l <> [] -> nrow a = length l -> ncol a = length l ->
  (forall i j, (i < length l)%nat -> (j < length l)%nat -> at2 a i j = Fin (g i j)) ->
  dispersion (map Fin l) (clusters l) a = Fin (disp l g).
Proof.
  intros l a g Hl Hr Hc H. unfold dispersion.
  rewrite (np_sum2_fin _ (fun i j => if Req_EM_T (label l i) (label l j) then g i j * g i j else 0)).
  - cbn [nrow ncol]. rewrite ndiv_fin.
    + unfold disp, within. rewrite Hr, Hc. reflexivity.
    + pose proof (clusters_pos l Hl) as P. apply le_INR in P. cbn [INR] in P. lra.
  - cbn [nrow ncol at2]. intros i j Hi Hj. rewrite Hr in Hi. rewrite Hc in Hj. rewrite identifier_fin, H by assumption. unfold nsqr. cbn [nmul].
    f_equal. destruct (Req_EM_T _ _); ring.
Qed.
Lemma reference_fin : forall G seed n m i j, (i < n)%nat -> (j < n)%nat ->
  at2 (reference (uniform2 m n (fst (gdraws G (n * n) (gseed G seed))))) i j = Fin (ref_dist G seed n m i j).
Proof.
  intros G seed n m i j Hi Hj. unfold reference, fill_diag, add2, np_triu, transpose2, uniform2, ref_dist, drawn. cbn [at2 nrow ncol].
  destruct (Nat.eq_dec i j) as [->|E]; [rewrite Nat.eqb_refl; reflexivity|]. rewrite (proj2 (Nat.eqb_neq i j) E).
  destruct (Nat.leb i j) eqn:A, (Nat.leb j i) eqn:B; try apply Nat.leb_le in A; try apply Nat.leb_le in B; try apply Nat.leb_gt in A; try apply Nat.leb_gt in B; try lia.
  - rewrite Nat.min_l, Nat.max_r by lia. cbn [nadd]. f_equal. ring.
  - rewrite Nat.min_r, Nat.max_l by lia. cbn [nadd]. f_equal. ring.
Qed.
Lemma log_or_zero_fin : forall w, log_or_zero (Fin w) = Fin (log0 w).
Proof. intros w. unfold log_or_zero, log0, ngtb. cbn [nltb]. unfold rltb. destruct (Rlt_dec 0 w); [apply nlog_fin; assumption|reflexivity]. Qed.

Definition next_state (G : generator) (n : nat) (seed : Z) : gstate G := snd (gdraws G (n * n) (gseed G seed)).

Lemma boot_loop_value : forall G l a M seed, l <> [] -> np_max2 a = Fin M -> forall todo b boots E s,
  (forall c, (b <= c < b + todo)%nat -> valid_seed (seed + Z.of_nat c)) ->
  boot_loop G a (map Fin l) (clusters l) seed todo b (map Fin boots) (Fin E) s =
  (Ok (map Fin (boots ++ map (log_ref G seed l M) (seq b todo)), Fin (fold_left Rplus (map (log_ref G seed l M) (seq b todo)) E)),
   match todo with O => s | S t => next_state G (length l) (seed + Z.of_nat (b + t)) end).
Proof.
  intros G l a M seed Hl HM. induction todo as [|todo IH]; intros b boots E s Hs.
  - cbn [boot_loop seq map fold_left]. rewrite app_nil_r. reflexivity.
  - cbn [boot_loop]. pose proof (Hs b ltac:(lia)) as Vb. unfold valid_seed in Vb.
    replace ((seed + Z.of_nat b <? 0)%Z) with false by (symmetry; apply Z.ltb_ge; lia).
    replace ((2 ^ 32 - 1 <? seed + Z.of_nat b)%Z) with false by (symmetry; apply Z.ltb_ge; lia). cbn [orb].
    rewrite HM. rewrite map_length. destruct (gdraws G (length l * length l) (gseed G (seed + Z.of_nat b))) as [us s'] eqn:Eg.
    assert (EL : log_or_zero (dispersion (map Fin l) (clusters l) (reference (uniform2 M (length l) us))) = Fin (log_ref G seed l M b)).
    { rewrite (dispersion_fin l _ (ref_dist G (seed + Z.of_nat b) (length l) M) Hl); [apply log_or_zero_fin|reflexivity|reflexivity|].
      intros i j Hi Hj. rewrite <- reference_fin by assumption. rewrite Eg. reflexivity. }
    rewrite EL. cbn [nadd]. replace (map Fin boots ++ [Fin (log_ref G seed l M b)])%list with (map Fin (boots ++ [log_ref G seed l M b])) by (rewrite map_app; reflexivity).
    rewrite IH by (intros c Hc; apply Hs; lia). cbn [seq map fold_left]. rewrite <- app_assoc. cbn [app]. f_equal.
    destruct todo as [|t].
    + unfold next_state. rewrite Nat.add_0_r, Eg. reflexivity.
    + f_equal. lia.
Qed.
Lemma fold_left_sum : forall l E, fold_left Rplus l E = E + rsum l.
Proof. induction l as [|x l IH]; intros E; cbn [fold_left rsum fold_right]; [ring|]. rewrite IH. unfold rsum. ring. Qed.

Lemma metric_inputs_ok : forall x y n D l, holds_matrix x n D -> holds_labels y l -> length l = n -> (2 <= n)%nat ->
  exists a, metric_inputs x y = Ok (a, map Fin l) /\ nrow a = n /\ ncol a = n /\ forall i j, (i < n)%nat -> (j < n)%nat -> at2 a i j = Fin (D i j).
Proof.
  intros x y n D l (a & Hx & Hr & Hc & Ha) Hy El Hn. exists a. split; [|auto]. unfold metric_inputs.
  assert (E1 : check_1d y = Ok (map Fin l)).
  { destruct Hy as [-> | ->]; cbn [check_1d]; rewrite map_length; replace (length l <? 2)%nat with false by (symmetry; apply Nat.ltb_ge; lia); reflexivity. }
  assert (E2 : check_2d x = Ok tt /\ values2 x = a).
  { destruct Hx as [-> | (names & ->)]; cbn [check_2d values2]; rewrite Hc; replace (n <? 2)%nat with false by (symmetry; apply Nat.ltb_ge; lia); split; reflexivity. }
  destruct E2 as (E2 & E3). rewrite E1. cbn [bind]. rewrite E2. cbn [bind]. rewrite E3, Hr, map_length, El, Nat.eqb_refl. reflexivity.
Qed.

Lemma disp_nonneg : forall l D, l <> [] -> 0 <= disp l D.
Proof.
  intros l D H. unfold disp, within. pose proof (clusters_pos l H) as P. apply le_INR in P. cbn [INR] in P.
  apply Rmult_le_pos; [|apply Rlt_le, Rinv_0_lt_compat; lra].
  apply S_nonneg. intros i Hi. apply S_nonneg. intros j Hj. destruct (Req_EM_T _ _); [|lra]. pose proof (Rle_0_sqr (D i j)) as Q. unfold Rsqr in Q. exact Q.
Qed.

(** ** The value *)
(** The gap statistic is the mean of the log dispersions of nb reference matrices minus the log dispersion of the data, its standard
    deviation the population one of the reference values; the reference matrix b is the symmetric matrix drawn uniformly below the
    largest distance after seeding with random_state + b (0 + b without one).  With no dispersion in the data the gap is infinite.
    The generator is left as the last reference matrix left it, whatever its state was. *)
Theorem C69_value : forall G s x y n D l M nb random_state,
  holds_matrix x n D -> holds_labels y l -> length l = n -> (2 <= n)%nat -> is_largest n D M -> (1 <= nb)%Z ->
  valid_seed (seed_of random_state) -> valid_seed (seed_of random_state + nb - 1) ->
  let B := Z.to_nat nb in let lr := log_ref G (seed_of random_state) l M in
  gap_statistic G s x y nb random_state =
  (Ok (if Rlt_dec 0 (disp l D) then Fin (avg B lr - ln (disp l D)) else PInf, Fin (spread B lr)),
   snd (gdraws G (n * n) (gseed G (seed_of random_state + nb - 1)))).
Proof.
  intros G s x y n D l M nb rs Hx Hy El Hn HM Hnb Hv1 Hv2 B lr.
  destruct (metric_inputs_ok x y n D l Hx Hy El Hn) as (a & E1 & Hr & Hc & Ha). unfold gap_statistic. rewrite E1, Hr, Hc, Nat.eqb_refl. cbn [negb].
  rewrite n_unique_fin. fold (seed_of rs). assert (Hl : l <> []) by (intros ->; cbn in El; lia).
  assert (EM : np_max2 a = Fin M).
  { apply (np_max2_fin a D); [rewrite Hr; exact HM|congruence|]. intros i j Hi Hj. apply Ha; lia. }
  pose proof (boot_loop_value G l a M (seed_of rs) Hl EM (Z.to_nat nb) 0 [] 0 s) as EB. cbn [map] in EB. rewrite EB; clear EB.
  2: { intros c Hc'. unfold valid_seed in *. lia. }
  replace (nb =? 0)%Z with false by (symmetry; apply Z.eqb_neq; lia).
  rewrite (dispersion_fin l a D Hl) by (rewrite ?El; auto; intros; apply Ha; congruence).
  fold lr. fold B. cbn [app]. assert (HB : (1 <= B)%nat) by (unfold B; lia). assert (PB : 0 < INR B) by (apply lt_0_INR; lia).
  assert (EI : IZR nb = INR B) by (unfold B; rewrite INR_IZR_INZ, Z2Nat.id by lia; reflexivity).
  rewrite EI, ndiv_fin by lra. rewrite fold_left_sum, Rplus_0_l.
  assert (EA : rsum (map lr (seq 0 B)) / INR B = avg B lr) by reflexivity. rewrite EA.
  rewrite nstd_fin by (rewrite map_length, seq_length; lia).
  assert (ES : sqrt (rvar 0 (map lr (seq 0 B))) = spread B lr).
  { unfold spread, rvar, avg at 1. f_equal. rewrite map_length, seq_length, Nat.sub_0_r. f_equal. rewrite map_map. unfold sumn.
    replace (rmean (map lr (seq 0 B))) with (avg B lr) by (unfold rmean, avg, sumn; rewrite map_length, seq_length; reflexivity). reflexivity. }
  rewrite ES. f_equal.
  - f_equal. f_equal. destruct (Rlt_dec 0 (disp l D)) as [P|P].
    + rewrite nlog_fin by exact P. apply nsub_fin.
    + assert (Z0 : disp l D = 0) by (pose proof (disp_nonneg l D Hl); lra). rewrite Z0. unfold nlog. rewrite (proj2 (rltb_false 0 0)) by lra.
      rewrite (proj2 (reqb_true 0 0)) by reflexivity. reflexivity.
  - unfold B. destruct (Z.to_nat nb) as [|t] eqn:Et; [lia|]. unfold next_state. rewrite El. do 3 f_equal. lia.
Qed.

(** ** Only the partition matters *)
Lemma clusters_le : forall l l', same_partition l l' -> (clusters l <= clusters l')%nat.
Proof.
  intros l l' (El & H). unfold clusters.
  set (pos := fun x => match find (fun i => if Req_EM_T (label l i) x then true else false) (seq 0 (length l)) with Some i => i | None => 0%nat end).
  assert (Hpos : forall x, In x l -> (pos x < length l)%nat /\ label l (pos x) = x).
  { intros x Hx. unfold pos. destruct (find _ _) as [i|] eqn:F.
    - apply find_some in F. destruct F as (F1 & F2). apply in_seq in F1. destruct (Req_EM_T (label l i) x) as [e|]; [|discriminate]. split; [lia|exact e].
    - exfalso. destruct (In_nth l x 0 Hx) as (i & Hi & Ei). pose proof (find_none _ _ F i ltac:(apply in_seq; lia)) as N. cbn in N.
      destruct (Req_EM_T (label l i) x) as [|n]; [discriminate|]. apply n. exact Ei. }
  rewrite <- (map_length (fun x => label l' (pos x)) (nodup Req_EM_T l)). apply NoDup_incl_length.
  - assert (Inj : forall xs, NoDup xs -> (forall x, In x xs -> In x l) -> NoDup (map (fun x => label l' (pos x)) xs)).
    { induction xs as [|x xs IH]; intros ND Hin; [constructor|]. inversion ND as [|? ? Hn ND']; subst. cbn [map]. constructor.
      - rewrite in_map_iff. intros (z & Ez & Hz). destruct (Hpos x (Hin x (or_introl eq_refl))) as (P1 & P2).
        destruct (Hpos z (Hin z (or_intror Hz))) as (Q1 & Q2). apply (H (pos z) (pos x) Q1 P1) in Ez. apply Hn. congruence.
      - apply IH; [exact ND'|]. intros w Hw. apply Hin. right. exact Hw. }
    apply Inj; [apply NoDup_nodup|]. intros x Hx. apply nodup_In in Hx. exact Hx.
  - intros v Hv. apply in_map_iff in Hv. destruct Hv as (x & <- & Hx). apply nodup_In in Hx. apply nodup_In. apply nth_In. rewrite <- El. apply (Hpos x Hx).
Qed.
Lemma same_partition_sym : forall l l', same_partition l l' -> same_partition l' l.
Proof. intros l l' (E & H). split; [congruence|]. intros i j Hi Hj. rewrite <- E in Hi, Hj. symmetry. apply H; assumption. Qed.
Lemma clusters_same : forall l l', same_partition l l' -> clusters l = clusters l'.
Proof. intros l l' H. apply Nat.le_antisymm; apply clusters_le; [exact H|apply same_partition_sym; exact H]. Qed.
Lemma identifier_same : forall l l' i j, same_partition l l' -> (i < length l)%nat -> (j < length l)%nat -> identifier (map Fin l) i j = identifier (map Fin l') i j.
Proof.
  intros l l' i j (E & H) Hi Hj. rewrite !identifier_fin by congruence. f_equal. specialize (H i j Hi Hj).
  destruct (Req_EM_T (label l i) (label l j)), (Req_EM_T (label l' i) (label l' j)); tauto.
Qed.
Lemma flat_map_ext_in : forall A B (f g : A -> list B) l, (forall x, In x l -> f x = g x) -> flat_map f l = flat_map g l.
Proof. intros A B f g l H. induction l as [|x l IH]; [reflexivity|]. cbn [flat_map]. rewrite H by (left; reflexivity). rewrite IH; [reflexivity|]. intros y Hy. apply H. right. exact Hy. Qed.
Lemma dispersion_same : forall l l' k a, same_partition l l' -> nrow a = length l -> ncol a = length l -> dispersion (map Fin l) k a = dispersion (map Fin l') k a.
Proof.
  intros l l' k a H Hr Hc. unfold dispersion, np_sum2. cbn [nrow ncol at2]. f_equal. f_equal. apply flat_map_ext_in. intros i Hi. apply map_ext_in. intros j Hj.
  apply in_seq in Hi. apply in_seq in Hj. rewrite (identifier_same l l') by (exact H || lia). reflexivity.
Qed.
Lemma boot_loop_same : forall G l l' k a seed, same_partition l l' -> forall todo b boots E s,
  boot_loop G a (map Fin l) k seed todo b boots E s = boot_loop G a (map Fin l') k seed todo b boots E s.
Proof.
  intros G l l' k a seed H. induction todo as [|t IH]; intros b boots E s; [reflexivity|]. cbn [boot_loop].
  destruct ((seed + Z.of_nat b <? 0)%Z || (2 ^ 32 - 1 <? seed + Z.of_nat b)%Z); [reflexivity|]. destruct (np_max2 a) as [m| | |]; try reflexivity.
  rewrite !map_length. destruct H as (El & H). rewrite El. destruct (gdraws G (length l' * length l') (gseed G (seed + Z.of_nat b))) as [us s'].
  rewrite (dispersion_same l l') by ((split; assumption) || (cbn; congruence)). apply IH.
Qed.

(** Two label lists that describe the same partition give the same outcome - value, standard deviation, exception and generator state - for
    every distance argument, valid or not. *)
Theorem C69_partition_only : forall G s x l l' nb random_state, same_partition l l' ->
  gap_statistic G s x (OArr1 (map Fin l)) nb random_state = gap_statistic G s x (OArr1 (map Fin l')) nb random_state /\
  gap_statistic G s x (OArr1 (map Fin l)) nb random_state = gap_statistic G s x (OSeries (map Fin l')) nb random_state.
Proof.
  intros G s x l l' nb rs H.
  assert (Q : gap_statistic G s x (OArr1 (map Fin l)) nb rs = gap_statistic G s x (OArr1 (map Fin l')) nb rs).
  { unfold gap_statistic, metric_inputs. cbn [check_1d]. rewrite !map_length. pose proof H as (El & _). rewrite <- El.
    destruct (length l <? 2)%nat; [reflexivity|]. cbn [bind]. destruct (check_2d x); [|reflexivity]. cbn [bind]. rewrite !map_length, <- El.
    destruct (Nat.eqb (nrow (values2 x)) (length l)) eqn:E; [|reflexivity]. cbn [negb]. apply Nat.eqb_eq in E.
    destruct (Nat.eqb (nrow (values2 x)) (ncol (values2 x))) eqn:E'; [|reflexivity]. cbn [negb]. apply Nat.eqb_eq in E'.
    rewrite !n_unique_fin, (clusters_same l l' H). rewrite (boot_loop_same G l l') by exact H. rewrite (dispersion_same l l') by (exact H || congruence). reflexivity. }
  split; [exact Q|]. rewrite Q. reflexivity.
Qed.

(** ** The state of the generator *)
Lemma boot_loop_state : forall G a l k seed todo b boots E s s',
  fst (boot_loop G a l k seed todo b boots E s) = fst (boot_loop G a l k seed todo b boots E s').
Proof.
  intros G a l k seed todo b boots E s s'. destruct todo as [|t]; [reflexivity|]. cbn [boot_loop].
  destruct ((seed + Z.of_nat b <? 0)%Z || (2 ^ 32 - 1 <? seed + Z.of_nat b)%Z); reflexivity.
Qed.
(** The outcome does not depend on the state np.random had before the call - it is the same for every history - and not giving
    random_state is giving 0. *)
Theorem C69_global_state : forall G s s' x y nb random_state,
  fst (gap_statistic G s x y nb random_state) = fst (gap_statistic G s' x y nb random_state) /\
  gap_statistic G s x y nb None = gap_statistic G s x y nb (Some 0%Z).
Proof.
  intros G s s' x y nb rs. split; [|reflexivity]. unfold gap_statistic. destruct (metric_inputs x y) as [[a l]|e]; [|reflexivity].
  destruct (negb (nrow a =? ncol a)%nat); [reflexivity|]. pose proof (boot_loop_state G a l (n_unique l) match rs with Some r => r | None => 0%Z end (Z.to_nat nb) 0 [] (Fin 0) s s') as Q.
  destruct (boot_loop G a l _ _ _ 0 [] (Fin 0) s) as [r1 t1], (boot_loop G a l _ _ _ 0 [] (Fin 0) s') as [r2 t2]. cbn [fst] in Q. subst r2.
  destruct r1 as [[boots E]|e]; [|reflexivity]. destruct (nb =? 0)%Z; reflexivity.
Qed.
(** But a successful call with nb >= 1 overwrites the state: a program that seeded np.random with anything continues from the same state
    after the call. *)
Theorem C69_overwrites_state : forall G s s' x y nb random_state gs, (1 <= nb)%Z ->
  fst (gap_statistic G s x y nb random_state) = Ok gs ->
  snd (gap_statistic G s x y nb random_state) = snd (gap_statistic G s' x y nb random_state).
Proof.
  intros G s s' x y nb rs gs Hnb. unfold gap_statistic. destruct (metric_inputs x y) as [[a l]|e]; [|discriminate].
  destruct (negb (nrow a =? ncol a)%nat); [discriminate|]. destruct (Z.to_nat nb) as [|t] eqn:Et; [lia|]. cbn [boot_loop].
  destruct (_ || _)%bool; [discriminate|]. reflexivity.
Qed.

(** ** Positive rescaling *)
Lemma within_scal : forall l c f, within l (fun i j => c * f i j) = c * within l f.
Proof.
  intros l c f. unfold within. rewrite <- S_scal. apply S_ext. intros i Hi. rewrite <- S_scal. apply S_ext. intros j Hj. destruct (Req_EM_T _ _); ring.
Qed.
Lemma within_ext : forall l f g, (forall i j, (i < length l)%nat -> (j < length l)%nat -> label l i = label l j -> f i j = g i j) -> within l f = within l g.
Proof.
  intros l f g H. unfold within. apply S_ext. intros i Hi. apply S_ext. intros j Hj. destruct (Req_EM_T _ _) as [e|]; [apply H; assumption|reflexivity].
Qed.
Lemma disp_scal : forall l c D, disp l (fun i j => c * D i j) = c * c * disp l D.
Proof.
  intros l c D. unfold disp, Rdiv. rewrite <- Rmult_assoc, <- within_scal. f_equal. apply within_ext. intros. ring.
Qed.
Lemma disp_ext : forall l D D', (forall i j, (i < length l)%nat -> (j < length l)%nat -> label l i = label l j -> D i j = D' i j) -> disp l D = disp l D'.
Proof. intros l D D' H. unfold disp. f_equal. apply within_ext. intros i j Hi Hj E. rewrite (H i j Hi Hj E). reflexivity. Qed.
Lemma within_pos : forall l f i j, (i < length l)%nat -> (j < length l)%nat -> label l i = label l j -> (forall i j, 0 <= f i j) -> 0 < f i j -> 0 < within l f.
Proof.
  intros l f i j Hi Hj E Hf Hp. unfold within.
  assert (P : forall i', 0 <= sumn (length l) (fun j => if Req_EM_T (label l i') (label l j) then f i' j else 0)).
  { intros i'. apply S_nonneg. intros j' _. destruct (Req_EM_T _ _); [apply Hf|lra]. }
  eapply Rlt_le_trans; [|apply (S_ge_term (length l) _ i Hi); intros; apply P].
  eapply Rlt_le_trans; [|apply (S_ge_term (length l) _ j Hj); intros j' _; cbn; destruct (Req_EM_T _ _); [apply Hf|lra]].
  cbn. destruct (Req_EM_T (label l i) (label l j)); [exact Hp|contradiction].
Qed.
Lemma disp_pos : forall l D i j, (i < length l)%nat -> (j < length l)%nat -> label l i = label l j -> D i j <> 0 -> 0 < disp l D.
Proof.
  intros l D i j Hi Hj E H. unfold disp. assert (Hl : l <> []) by (intros ->; cbn in Hi; lia). pose proof (clusters_pos l Hl) as P. apply le_INR in P. cbn [INR] in P.
  apply Rdiv_lt_0_compat; [|lra]. apply (within_pos l _ i j Hi Hj E).
  - intros. pose proof (Rle_0_sqr (D i0 j0)) as Q. exact Q.
  - apply Rsqr_pos_lt. exact H.
Qed.
Lemma disp_zero : forall l D, (forall i j, (i < length l)%nat -> (j < length l)%nat -> label l i = label l j -> D i j = 0) -> disp l D = 0.
Proof.
  intros l D H. rewrite (disp_ext l D (fun i j => 0 * D i j)).
  - rewrite disp_scal. ring.
  - intros i j Hi Hj E. rewrite (H i j Hi Hj E). ring.
Qed.
Lemma log0_scal : forall c w, 0 < c -> 0 < w -> log0 (c * c * w) = 2 * ln c + log0 w.
Proof.
  intros c w Hc Hw. unfold log0. assert (0 < c * c * w) by (apply Rmult_lt_0_compat; [apply Rmult_lt_0_compat|]; assumption).
  destruct (Rlt_dec 0 (c * c * w)) as [_|]; [|contradiction]. destruct (Rlt_dec 0 w) as [_|]; [|contradiction].
  rewrite !ln_mult by (try apply Rmult_lt_0_compat; assumption). ring.
Qed.
Lemma avg_ext : forall n f g, (forall i, (i < n)%nat -> f i = g i) -> avg n f = avg n g.
Proof. intros n f g H. unfold avg. rewrite (S_ext n f g H). reflexivity. Qed.
Lemma avg_shift : forall n c f, (1 <= n)%nat -> avg n (fun b => c + f b) = c + avg n f.
Proof.
  intros n c f Hn. unfold avg. rewrite S_plus. assert (P : 0 < INR n) by (apply lt_0_INR; lia).
  replace (sumn n (fun _ => c)) with (INR n * c) by (unfold sumn; rewrite rsum_const, seq_length; reflexivity). field. lra.
Qed.
Lemma spread_ext : forall n f g, (forall i, (i < n)%nat -> f i = g i) -> spread n f = spread n g.
Proof. intros n f g H. unfold spread. f_equal. rewrite (avg_ext n f g H). apply avg_ext. intros i Hi. rewrite (H i Hi). reflexivity. Qed.
Lemma spread_shift : forall n c f, (1 <= n)%nat -> spread n (fun b => c + f b) = spread n f.
Proof. intros n c f Hn. unfold spread. f_equal. rewrite avg_shift by exact Hn. apply avg_ext. intros i Hi. ring. Qed.
Lemma largest_scal : forall n D M c, 0 < c -> is_largest n D M -> is_largest n (fun i j => c * D i j) (c * M).
Proof.
  intros n D M c Hc ((i & j & Hi & Hj & E) & H). split; [exists i, j; repeat split; auto; congruence|]. intros i' j' Hi' Hj'. apply Rmult_le_compat_l; [lra|auto].
Qed.
Lemma largest_exists : forall n D, (1 <= n)%nat -> exists M, is_largest n D M.
Proof.
  assert (row : forall (f : nat -> R) m, (1 <= m)%nat -> exists k, (k < m)%nat /\ forall i, (i < m)%nat -> f i <= f k).
  { intros f. induction m as [|m IH]; intros H; [lia|]. destruct m as [|m].
    - exists 0%nat. split; [lia|]. intros i Hi. replace i with 0%nat by lia. lra.
    - destruct (IH ltac:(lia)) as (k & Hk & Hm). destruct (Rle_dec (f (S m)) (f k)) as [L|L].
      + exists k. split; [lia|]. intros i Hi. destruct (Nat.eq_dec i (S m)) as [->|]; [exact L|apply Hm; lia].
      + exists (S m). split; [lia|]. intros i Hi. destruct (Nat.eq_dec i (S m)) as [->|]; [lra|]. pose proof (Hm i ltac:(lia)). lra. }
  intros n D Hn. assert (C : forall i, exists j, (j < n)%nat /\ forall j', (j' < n)%nat -> D i j' <= D i j) by (intros i; apply row; exact Hn).
  assert (RM : forall m, (1 <= m)%nat -> exists i j, (i < m)%nat /\ (j < n)%nat /\ forall i' j', (i' < m)%nat -> (j' < n)%nat -> D i' j' <= D i j).
  { induction m as [|m IH]; intros H; [lia|]. destruct (C m) as (jm & Hjm & Hmax). destruct m as [|m].
    - exists 0%nat, jm. repeat split; auto. intros i' j' Hi' Hj'. replace i' with 0%nat by lia. apply Hmax; exact Hj'.
    - destruct (IH ltac:(lia)) as (i & j & Hi & Hj & HH). destruct (Rle_dec (D (S m) jm) (D i j)) as [L|L].
      + exists i, j. repeat split; auto. intros i' j' Hi' Hj'. destruct (Nat.eq_dec i' (S m)) as [->|]; [pose proof (Hmax j' Hj'); lra|apply HH; lia].
      + exists (S m), jm. repeat split; auto. intros i' j' Hi' Hj'. destruct (Nat.eq_dec i' (S m)) as [->|]; [apply Hmax; exact Hj'|pose proof (HH i' j' ltac:(lia) Hj'); lra]. }
  destruct (RM n Hn) as (i & j & Hi & Hj & HH). exists (D i j). split; [exists i, j; auto|exact HH].
Qed.

Lemma classic_pairs : forall l, (exists i j, (i < j < length l)%nat /\ label l i = label l j) \/ forall i j, (i < j < length l)%nat -> label l i <> label l j.
Proof.
  intros l. destruct (existsb (fun i => existsb (fun j => Nat.ltb i j && (if Req_EM_T (label l i) (label l j) then true else false)) (seq 0 (length l))) (seq 0 (length l))) eqn:E.
  - left. apply existsb_exists in E. destruct E as (i & Hi & E). apply existsb_exists in E. destruct E as (j & Hj & E). apply in_seq in Hj.
    apply andb_prop in E. destruct E as (E1 & E2). apply Nat.ltb_lt in E1. exists i, j. split; [lia|]. destruct (Req_EM_T _ _); [assumption|discriminate].
  - right. intros i j Hij Eq. assert (T : existsb (fun i => existsb (fun j => Nat.ltb i j && (if Req_EM_T (label l i) (label l j) then true else false)) (seq 0 (length l))) (seq 0 (length l)) = true).
    { apply existsb_exists. exists i. split; [apply in_seq; lia|]. apply existsb_exists. exists j. split; [apply in_seq; lia|].
      apply andb_true_intro. split; [apply Nat.ltb_lt; lia|]. destruct (Req_EM_T _ _); [reflexivity|contradiction]. }
    congruence.
Qed.

(** Multiplying all distances by c > 0 changes neither the statistic nor its standard deviation, for nonnegative distances with a zero
    diagonal; the one other condition is on the generator: in no reference matrix are all draws between points of a common cluster 0. *)
Theorem C69_scale : forall G s x x' y n D l c nb random_state,
  holds_matrix x n D -> holds_matrix x' n (fun i j => c * D i j) -> holds_labels y l -> length l = n -> (2 <= n)%nat ->
  0 < c -> (forall i j, (i < n)%nat -> (j < n)%nat -> 0 <= D i j) -> (forall i, (i < n)%nat -> D i i = 0) ->
  (1 <= nb)%Z -> valid_seed (seed_of random_state) -> valid_seed (seed_of random_state + nb - 1) ->
  (forall b i j, (0 <= b < nb)%Z -> (i < j < n)%nat -> label l i = label l j ->
     exists i' j', (i' < j' < n)%nat /\ label l i' = label l j' /\ drawn G (seed_of random_state + b) n i' j' <> 0) ->
  gap_statistic G s x' y nb random_state = gap_statistic G s x y nb random_state.
Proof.
  intros G s x x' y n D l c nb rs Hx Hx' Hy El Hn Hc Hnn Hd Hnb Hv1 Hv2 Hu.
  destruct (largest_exists n D ltac:(lia)) as (M & HM). pose proof (largest_scal n D M c Hc HM) as HM'.
  rewrite (C69_value G s x y n D l M nb rs Hx Hy El Hn HM Hnb Hv1 Hv2).
  rewrite (C69_value G s x' y n _ l (c * M) nb rs Hx' Hy El Hn HM' Hnb Hv1 Hv2).
  set (B := Z.to_nat nb). set (sd := seed_of rs) in *. assert (HB : (1 <= B)%nat) by (unfold B; lia).
  assert (ER : forall b i j, ref_dist G (sd + Z.of_nat b) (length l) (c * M) i j = c * ref_dist G (sd + Z.of_nat b) (length l) M i j).
  { intros b i j. unfold ref_dist. destruct (Nat.eq_dec i j); ring. }
  assert (ED : forall b, disp l (ref_dist G (sd + Z.of_nat b) (length l) (c * M)) = c * c * disp l (ref_dist G (sd + Z.of_nat b) (length l) M)).
  { intros b. rewrite <- disp_scal. apply disp_ext. intros. apply ER. }
  rewrite (disp_scal l c D). assert (Hcc : 0 < c * c) by (apply Rmult_lt_0_compat; assumption).
  assert (Hl : l <> []) by (intros ->; cbn in El; lia). pose proof (disp_nonneg l D Hl) as HW.
  assert (M0 : 0 <= M) by (destruct HM as ((i & j & Hi & Hj & <-) & _); apply Hnn; assumption).
  assert (Hcase : (forall b, (b < B)%nat -> 0 < disp l (ref_dist G (sd + Z.of_nat b) (length l) M)) \/
                  (disp l D = 0 /\ forall b, (b < B)%nat -> disp l (ref_dist G (sd + Z.of_nat b) (length l) M) = 0)).
  { destruct (Req_dec M 0) as [Z0|NZ].
    - right. split.
      + apply disp_zero. intros i j Hi Hj _. destruct HM as (_ & HM). pose proof (HM i j ltac:(lia) ltac:(lia)). pose proof (Hnn i j ltac:(lia) ltac:(lia)). lra.
      + intros b Hb. apply disp_zero. intros i j Hi Hj _. unfold ref_dist. destruct (Nat.eq_dec i j); [reflexivity|]. rewrite Z0. ring.
    - destruct (classic_pairs l) as [(i & j & Hij & E)|NP].
      + left. intros b Hb. destruct (Hu (Z.of_nat b) i j ltac:(unfold B in Hb; lia) ltac:(lia) E) as (i' & j' & Hij' & E' & Hdr).
        apply (disp_pos l _ i' j'); try lia; [exact E'|]. unfold ref_dist. destruct (Nat.eq_dec i' j'); [lia|]. rewrite Nat.min_l, Nat.max_r by lia.
        rewrite El. apply Rmult_integral_contrapositive. split; assumption.
      + right. assert (NP' : forall i j, (i < length l)%nat -> (j < length l)%nat -> label l i = label l j -> i = j).
        { intros i j Hi Hj E. destruct (Nat.lt_trichotomy i j) as [L|[L|L]]; [|exact L|].
          - exfalso. apply (NP i j); [lia|exact E].
          - exfalso. apply (NP j i); [lia|symmetry; exact E]. }
        split.
        * apply disp_zero. intros i j Hi Hj E. rewrite (NP' i j Hi Hj E). apply Hd. rewrite (NP' i j Hi Hj E) in Hi. lia.
        * intros b Hb. apply disp_zero. intros i j Hi Hj E. rewrite (NP' i j Hi Hj E). unfold ref_dist. destruct (Nat.eq_dec j j); [reflexivity|contradiction]. }
  f_equal. f_equal. destruct Hcase as [Hpos|(Z0 & Hz)].
  - assert (EL : forall b, (b < B)%nat -> log_ref G sd l (c * M) b = 2 * ln c + log_ref G sd l M b).
    { intros b Hb. unfold log_ref. rewrite ED. apply log0_scal; [exact Hc|apply Hpos; exact Hb]. }
    rewrite (avg_ext B _ _ EL), (spread_ext B _ _ EL), avg_shift, spread_shift by exact HB. f_equal.
    destruct (Rlt_dec 0 (disp l D)) as [P|P].
    + destruct (Rlt_dec 0 (c * c * disp l D)) as [_|Q]; [|exfalso; apply Q; apply Rmult_lt_0_compat; assumption].
      f_equal. rewrite !ln_mult by assumption. ring.
    + assert (Z0 : disp l D = 0) by lra. rewrite Z0, Rmult_0_r. destruct (Rlt_dec 0 0); [lra|reflexivity].
  - rewrite Z0, Rmult_0_r. assert (EL : forall b, (b < B)%nat -> log_ref G sd l (c * M) b = log_ref G sd l M b).
    { intros b Hb. unfold log_ref. rewrite ED, (Hz b Hb), Rmult_0_r. reflexivity. }
    rewrite (spread_ext B _ _ EL). destruct (Rlt_dec 0 0); [lra|reflexivity].
Qed.

(** A nonzero diagonal breaks this: two points in two clusters, all distances 1, against the same with all distances 2. *)
Definition zero_gen : generator := mkGen unit (fun _ => tt) (fun _ => (1 / 2, tt)).
Definition const_matrix (n : nat) (c : R) : obj := OArr2 (mkArr n n (fun _ _ => Fin c)).
Lemma const_holds : forall n c, holds_matrix (const_matrix n c) n (fun _ _ => c).
Proof. intros n c. exists (mkArr n n (fun _ _ => Fin c)). repeat split. left. reflexivity. Qed.
Theorem C69_scale_diagonal_refuted :
  fst (gap_statistic zero_gen tt (const_matrix 2 1) (OArr1 (map Fin [0; 1])) 1 None) <>
  fst (gap_statistic zero_gen tt (const_matrix 2 2) (OArr1 (map Fin [0; 1])) 1 None).
Proof.
  assert (V : forall c, fst (gap_statistic zero_gen tt (const_matrix 2 c) (OArr1 (map Fin [0; 1])) 1 None) =
    Ok (if Rlt_dec 0 (disp [0; 1] (fun _ _ => c)) then Fin (avg 1 (log_ref zero_gen 0 [0; 1] c) - ln (disp [0; 1] (fun _ _ => c))) else PInf, Fin (spread 1 (log_ref zero_gen 0 [0; 1] c)))).
  { intros c. rewrite (C69_value zero_gen tt (const_matrix 2 c) (OArr1 (map Fin [0; 1])) 2 (fun _ _ => c) [0; 1] c 1 None); try reflexivity; try lia.
    - apply const_holds.
    - left. reflexivity.
    - split; [exists 0%nat, 0%nat; repeat split; lia|intros; lra].
    - unfold valid_seed, seed_of. lia.
    - unfold valid_seed, seed_of. lia. }
  rewrite !V. clear V.
  assert (EW : forall c, disp [0; 1] (fun _ _ => c) = c * c / 4).
  { intros c. unfold disp, within, clusters, sumn, label. cbn [length seq map nth rsum fold_right nodup in_dec list_rec list_rect].
    repeat (destruct (Req_EM_T _ _); try lra). all: try (cbn in *; repeat (destruct (Req_EM_T _ _); try lra)); cbn [length INR in_dec list_rec list_rect]; repeat (destruct (Req_EM_T _ _); try lra); cbn [length INR]; field. }
  assert (EL : forall c, log_ref zero_gen 0 [0; 1] c 0 = 0).
  { intros c. unfold log_ref. rewrite disp_zero.
    - unfold log0. destruct (Rlt_dec 0 0); [lra|reflexivity].
    - intros i j Hi Hj E. cbn in Hi, Hj. unfold label in E. assert (i = j) as ->.
      { destruct i as [|[|]], j as [|[|]]; try lia; cbn in E; lra. }
      unfold ref_dist. destruct (Nat.eq_dec j j); [reflexivity|contradiction]. }
  unfold avg, sumn. cbn [seq map rsum fold_right]. rewrite !EL, !EW. destruct (Rlt_dec 0 (1 * 1 / 4)) as [_|]; [|lra]. destruct (Rlt_dec 0 (2 * 2 / 4)) as [_|]; [|lra].
  intros E. injection E as E _. assert (H : ln (1 * 1 / 4) < ln (2 * 2 / 4)) by (apply ln_increasing; lra). lra.
Qed.

(** ** The normalisation *)
(** The number of clusters the library divides by cancels: the statistic compares the sums of squared distances within the clusters. *)
Theorem C69_ratio : forall G s x y n D l M nb random_state,
  holds_matrix x n D -> holds_labels y l -> length l = n -> (2 <= n)%nat -> is_largest n D M -> (1 <= nb)%Z ->
  valid_seed (seed_of random_state) -> valid_seed (seed_of random_state + nb - 1) ->
  let ref b := ref_dist G (seed_of random_state + Z.of_nat b) n M in
  let log_sum b := ln (within l (fun i j => ref b i j * ref b i j)) in
  0 < within l (fun i j => D i j * D i j) ->
  (forall b, (b < Z.to_nat nb)%nat -> 0 < within l (fun i j => ref b i j * ref b i j)) ->
  fst (gap_statistic G s x y nb random_state) =
    Ok (Fin (avg (Z.to_nat nb) log_sum - ln (within l (fun i j => D i j * D i j))), Fin (spread (Z.to_nat nb) log_sum)).
Proof.
  intros G s x y n D l M nb rs Hx Hy El Hn HM Hnb Hv1 Hv2 ref log_sum HW HB.
  rewrite (C69_value G s x y n D l M nb rs Hx Hy El Hn HM Hnb Hv1 Hv2). cbn [fst].
  assert (Hl : l <> []) by (intros ->; cbn in El; lia). pose proof (clusters_pos l Hl) as P. apply le_INR in P. cbn [INR] in P.
  assert (P4 : 0 < 4 * INR (clusters l)) by lra. pose proof (Rinv_0_lt_compat _ P4) as P5.
  assert (EW : 0 < disp l D) by (unfold disp; apply Rdiv_lt_0_compat; assumption).
  destruct (Rlt_dec 0 (disp l D)) as [_|]; [|contradiction].
  assert (EL : forall b, (b < Z.to_nat nb)%nat -> log_ref G (seed_of rs) l M b = ln (/ (4 * INR (clusters l))) + log_sum b).
  { intros b Hb. specialize (HB b Hb). unfold log_ref, log0. rewrite El. fold (ref b). unfold disp, Rdiv.
    assert (Q : 0 < within l (fun i j => ref b i j * ref b i j) * / (4 * INR (clusters l))) by (apply Rmult_lt_0_compat; assumption).
    destruct (Rlt_dec 0 _) as [_|]; [|contradiction]. rewrite ln_mult by assumption. unfold log_sum. ring. }
  rewrite (avg_ext _ _ _ EL), (spread_ext _ _ _ EL), avg_shift, spread_shift by lia. f_equal. f_equal. f_equal. unfold disp, Rdiv. rewrite ln_mult by assumption. ring.
Qed.

(** With clusters of one common size the statistic is the published one. *)
Theorem C69_published_equal_sizes : forall G s x y n D l M nb random_state m,
  holds_matrix x n D -> holds_labels y l -> length l = n -> (2 <= n)%nat -> is_largest n D M -> (1 <= nb)%Z ->
  valid_seed (seed_of random_state) -> valid_seed (seed_of random_state + nb - 1) ->
  (forall i, (i < n)%nat -> size_of l i = m) ->
  let log_pub b := ln (published_disp l (ref_dist G (seed_of random_state + Z.of_nat b) n M)) in
  0 < published_disp l D ->
  (forall b, (b < Z.to_nat nb)%nat -> 0 < published_disp l (ref_dist G (seed_of random_state + Z.of_nat b) n M)) ->
  fst (gap_statistic G s x y nb random_state) =
    Ok (Fin (avg (Z.to_nat nb) log_pub - ln (published_disp l D)), Fin (spread (Z.to_nat nb) log_pub)).
Proof.
  intros G s x y n D l M nb rs m Hx Hy El Hn HM Hnb Hv1 Hv2 Hm log_pub HW HB.
  assert (Pm : 1 <= m).
  { rewrite <- (Hm 0%nat ltac:(lia)). unfold size_of. eapply Rle_trans; [|apply (S_ge_term (length l) _ 0%nat); [lia|]].
    - cbn beta. destruct (Req_EM_T _ _); [lra|contradiction].
    - intros i Hi. cbn beta. destruct (Req_EM_T _ _); lra. }
  assert (EP : forall D', published_disp l D' = / (2 * m) * within l (fun i j => D' i j * D' i j)).
  { intros D'. unfold published_disp. rewrite <- within_scal. apply within_ext. intros i j Hi Hj _. rewrite Hm by lia. unfold Rdiv. ring. }
  assert (P5 : 0 < / (2 * m)) by (apply Rinv_0_lt_compat; lra).
  assert (POS : forall D', 0 < published_disp l D' -> 0 < within l (fun i j => D' i j * D' i j)).
  { intros D' H. rewrite EP in H. apply (Rmult_lt_reg_l _ _ _ P5). lra. }
  rewrite (C69_ratio G s x y n D l M nb rs Hx Hy El Hn HM Hnb Hv1 Hv2 (POS _ HW) (fun b Hb => POS _ (HB b Hb))).
  assert (EL : forall b, (b < Z.to_nat nb)%nat -> log_pub b = ln (/ (2 * m)) + ln (within l (fun i j => ref_dist G (seed_of rs + Z.of_nat b) n M i j * ref_dist G (seed_of rs + Z.of_nat b) n M i j))).
  { intros b Hb. unfold log_pub. rewrite EP, ln_mult by (try apply POS; auto). reflexivity. }
  rewrite (avg_ext _ _ _ EL), (spread_ext _ _ _ EL), avg_shift, spread_shift by lia. f_equal. f_equal. f_equal.
  rewrite EP, ln_mult by (try apply POS; assumption). ring.
Qed.

(** With clusters of different sizes it is not: two points at distance 1 and three at distance 2, distance 4 between the groups, all draws 1/2. *)
Definition two_three (i j : nat) : R :=
  if Nat.eqb i j then 0 else if Nat.ltb i 2 && Nat.ltb j 2 then 1 else if Nat.leb 2 i && Nat.leb 2 j then 2 else 4.
Definition two_three_obj : obj := OArr2 (mkArr 5 5 (fun i j => Fin (two_three i j))).
Definition two_three_labels : list R := [0; 0; 1; 1; 1].
Lemma half_draw : forall m s, fst (gdraws zero_gen m s) = repeat (1 / 2) m.
Proof. induction m as [|m IH]; intros s; [reflexivity|]. cbn [gdraws gdraw zero_gen repeat]. specialize (IH tt). destruct (gdraws zero_gen m tt). cbn [fst] in *. congruence. Qed.
Lemma half_drawn : forall seed n i j, (i < n)%nat -> (j < n)%nat -> drawn zero_gen seed n i j = 1 / 2.
Proof.
  intros seed n i j Hi Hj. unfold drawn. rewrite half_draw. assert (L : (i * n + j < n * n)%nat) by nia. revert L. generalize (i * n + j)%nat (n * n)%nat.
  intros a b. revert a. induction b as [|b IH]; intros a Ha; [lia|]. destruct a as [|a]; cbn [repeat nth]; [reflexivity|apply IH; lia].
Qed.
Lemma two_three_within : forall f, within two_three_labels f =
  (f 0%nat 0%nat + f 0%nat 1%nat + f 1%nat 0%nat + f 1%nat 1%nat + (f 2%nat 2%nat + f 2%nat 3%nat + f 2%nat 4%nat) + (f 3%nat 2%nat + f 3%nat 3%nat + f 3%nat 4%nat) + (f 4%nat 2%nat + f 4%nat 3%nat + f 4%nat 4%nat)).
Proof.
  intros f. unfold within, sumn, label, two_three_labels. cbn [length seq map nth rsum fold_right].
  repeat (destruct (Req_EM_T _ _); try lra).
Qed.
Lemma two_three_sizes : forall i, (i < 5)%nat -> size_of two_three_labels i = if Nat.ltb i 2 then 2 else 3.
Proof.
  intros i Hi. unfold size_of, sumn, label, two_three_labels. do 5 (destruct i as [|i]; [cbn [length seq map nth rsum fold_right Nat.ltb Nat.leb]; repeat (destruct (Req_EM_T _ _); try lra)|]). lia.
Qed.
Theorem C69_published_refuted : exists g sd,
  fst (gap_statistic zero_gen tt two_three_obj (OArr1 (map Fin two_three_labels)) 1 None) = Ok (Fin g, sd) /\
  g <> avg 1 (fun b => ln (published_disp two_three_labels (ref_dist zero_gen (0 + Z.of_nat b) 5 4))) - ln (published_disp two_three_labels two_three).
Proof.
  assert (ER : forall i j, (i < 5)%nat -> (j < 5)%nat -> ref_dist zero_gen (0 + Z.of_nat 0) 5 4 i j = if Nat.eqb i j then 0 else 2).
  { intros i j Hi Hj. unfold ref_dist. destruct (Nat.eq_dec i j) as [->|E]; [rewrite Nat.eqb_refl; reflexivity|]. rewrite (proj2 (Nat.eqb_neq i j) E). rewrite half_drawn by lia. lra. }
  assert (W1 : within two_three_labels (fun i j => two_three i j * two_three i j) = 26) by (rewrite two_three_within; cbn; lra).
  assert (W2 : within two_three_labels (fun i j => ref_dist zero_gen (0 + Z.of_nat 0) 5 4 i j * ref_dist zero_gen (0 + Z.of_nat 0) 5 4 i j) = 32).
  { rewrite two_three_within, !ER by lia. cbn [Nat.eqb]. lra. }
  pose proof (C69_ratio zero_gen tt two_three_obj (OArr1 (map Fin two_three_labels)) 5 two_three two_three_labels 4 1 None) as E. cbv zeta in E.
  eexists. eexists. split; [eapply E; clear E; try reflexivity; try lia|].
  - exists (mkArr 5 5 (fun i j => Fin (two_three i j))). repeat split. left. reflexivity.
  - left. reflexivity.
  - split; [exists 0%nat, 4%nat; repeat split; lia|]. intros i j _ _. unfold two_three. destruct (Nat.eqb i j); [lra|]. destruct (_ && _); [lra|]. destruct (_ && _); lra.
  - unfold valid_seed, seed_of. lia.
  - unfold valid_seed, seed_of. lia.
  - rewrite W1. lra.
  - intros b Hb. change (Z.to_nat 1) with 1%nat in Hb. replace b with 0%nat by lia. cbn [seed_of]. rewrite W2. lra.
  - cbn [seed_of]. change (Z.to_nat 1) with 1%nat. unfold avg, sumn. cbn [seq map rsum fold_right]. rewrite W1, W2.
    assert (P1 : published_disp two_three_labels two_three = 9 / 2).
    { unfold published_disp. rewrite two_three_within. rewrite !two_three_sizes by lia. cbn; lra. }
    assert (P2 : published_disp two_three_labels (ref_dist zero_gen (0 + Z.of_nat 0) 5 4) = 6).
    { unfold published_disp. rewrite two_three_within, !two_three_sizes, !ER by lia. cbn; lra. }
    rewrite P1, P2. cbn [INR]. intros Q.
    assert (H1 : ln 32 + ln (9 / 2) = ln (32 * (9 / 2))) by (rewrite ln_mult by lra; reflexivity).
    assert (H2 : ln 6 + ln 26 = ln (6 * 26)) by (rewrite ln_mult by lra; reflexivity).
    assert (H3 : ln (32 * (9 / 2)) < ln (6 * 26)) by (apply ln_increasing; lra). lra.
Qed.

(** ** Arguments *)
(** What is raised: ValueError for labels or distances of the wrong kind, dimension or size and for a matrix that is not square,
    AssertionError when the number of rows is not the number of labels, ZeroDivisionError without reference matrices, ValueError for a seed that
    numpy does not accept. *)
Definition label_list (y : obj) (l : list num) : Prop := (y = OArr1 l \/ y = OSeries l) /\ (2 <= length l)%nat.
Definition table_of (x : obj) (a : arr2) : Prop := (x = OArr2 a \/ exists names, x = OFrame names a) /\ (2 <= ncol a)%nat.
Lemma check_1d_iff : forall y, (forall l, label_list y l -> check_1d y = Ok l) /\ ((~ exists l, label_list y l) -> check_1d y = Raise ValueError).
Proof.
  intros y. split.
  - intros l [[->| ->] H]; cbn [check_1d]; destruct (Nat.ltb_spec (length l) 2); [lia|reflexivity|lia|reflexivity].
  - intros H. destruct y; cbn [check_1d]; try reflexivity; destruct (Nat.ltb_spec (length l) 2); try reflexivity; exfalso; apply H; exists l; split; auto.
Qed.
Lemma check_2d_iff : forall x, (forall a, table_of x a -> check_2d x = Ok tt /\ values2 x = a) /\ ((~ exists a, table_of x a) -> check_2d x = Raise ValueError).
Proof.
  intros x. split.
  - intros a [[->|[names ->]] H]; cbn [check_2d values2]; destruct (Nat.ltb_spec (ncol a) 2); [lia|auto|lia|auto].
  - intros H. destruct x; cbn [check_2d]; try reflexivity; destruct (Nat.ltb_spec (ncol a) 2); try reflexivity; exfalso; apply H; exists a; split; eauto.
Qed.
Theorem C69_errors : forall G s x y nb random_state,
  ((~ exists l, label_list y l) \/ (~ exists a, table_of x a) -> fst (gap_statistic G s x y nb random_state) = Raise ValueError) /\
  (forall l a, label_list y l -> table_of x a -> nrow a <> length l -> fst (gap_statistic G s x y nb random_state) = Raise AssertionError) /\
  (forall n D l, holds_matrix x n D -> holds_labels y l -> length l = n -> (2 <= n)%nat ->
     (nb = 0%Z -> fst (gap_statistic G s x y nb random_state) = Raise ZeroDivisionError) /\
     ((1 <= nb)%Z -> ~ valid_seed (seed_of random_state) -> fst (gap_statistic G s x y nb random_state) = Raise ValueError)).
Proof.
  intros G s x y nb rs. repeat split.
  - intros H0. assert (H : check_1d y = Raise ValueError \/ check_2d x = Raise ValueError) by (destruct H0 as [H0|H0]; [left; apply check_1d_iff|right; apply check_2d_iff]; exact H0). clear H0.
    unfold gap_statistic, metric_inputs. destruct (check_1d y) as [l|e] eqn:E1; cbn [bind].
    + destruct H as [H|H]; [discriminate|]. rewrite H. reflexivity.
    + destruct H as [H|H]; [injection H as ->; reflexivity|].
      destruct y; cbn [check_1d] in E1; try (destruct (_ <? _)%nat in E1); try discriminate; injection E1 as <-; reflexivity.
  - intros l a Hl Ha Hn. pose proof (proj1 (check_1d_iff y) l Hl) as E1. destruct (proj1 (check_2d_iff x) a Ha) as [E2 E3]. rewrite <- E3 in Hn. unfold gap_statistic, metric_inputs. rewrite E1. cbn [bind]. rewrite E2. cbn [bind]. rewrite (proj2 (Nat.eqb_neq _ _) Hn). reflexivity.
  - intros ->. destruct (metric_inputs_ok x y n D l H H0 H1 H2) as (a & E1 & Hr & Hc & Ha). unfold gap_statistic. rewrite E1, Hr, Hc, Nat.eqb_refl. reflexivity.
  - intros Hnb Hv. destruct (metric_inputs_ok x y n D l H H0 H1 H2) as (a & E1 & Hr & Hc & Ha). unfold gap_statistic. rewrite E1, Hr, Hc, Nat.eqb_refl. cbn [negb].
    destruct (Z.to_nat nb) as [|t] eqn:Et; [lia|]. cbn [boot_loop]. fold (seed_of rs). unfold valid_seed in Hv.
    assert (B : ((seed_of rs + Z.of_nat 0 <? 0)%Z || (2 ^ 32 - 1 <? seed_of rs + Z.of_nat 0)%Z)%bool = true).
    { destruct (Z.ltb_spec (seed_of rs + Z.of_nat 0) 0); [reflexivity|]. cbn [orb]. apply Z.ltb_lt. lia. }
    rewrite B. reflexivity.
Qed.

(** ** Cases that meet the hypotheses *)
Example C69_example_value : exists g sd,
  fst (gap_statistic zero_gen tt two_three_obj (OArr1 (map Fin two_three_labels)) 1 None) = Ok (Fin g, sd) /\ g = ln 32 - ln 26.
Proof.
  pose proof (C69_ratio zero_gen tt two_three_obj (OArr1 (map Fin two_three_labels)) 5 two_three two_three_labels 4 1 None) as E. cbv zeta in E.
  eexists. eexists. split; [eapply E; clear E; try reflexivity; try lia|].
  - exists (mkArr 5 5 (fun i j => Fin (two_three i j))). repeat split. left. reflexivity.
  - left. reflexivity.
  - split; [exists 0%nat, 4%nat; repeat split; lia|]. intros i j _ _. unfold two_three. destruct (Nat.eqb i j); [lra|]. destruct (_ && _); [lra|]. destruct (_ && _); lra.
  - unfold valid_seed, seed_of. lia.
  - unfold valid_seed, seed_of. lia.
  - rewrite two_three_within. cbn. lra.
  - intros b Hb. change (Z.to_nat 1) with 1%nat in Hb. replace b with 0%nat by lia. cbn [seed_of]. rewrite two_three_within. unfold ref_dist. rewrite !half_drawn by (cbn; lia). cbn. lra.
  - change (Z.to_nat 1) with 1%nat. unfold avg, sumn. cbn [seq map rsum fold_right seed_of]. rewrite !two_three_within.
    unfold ref_dist. rewrite !half_drawn by (cbn; lia). cbn. unfold Rdiv. rewrite Rplus_0_r, Rinv_1, Rmult_1_r. f_equal; [f_equal; lra|f_equal; f_equal; lra].
Qed.
Example C69_example_partition : same_partition [0; 0; 1; 1; 1] [7; 7; 3; 3; 3] /\
  forall G s, gap_statistic G s two_three_obj (OArr1 (map Fin [0; 0; 1; 1; 1])) 10 None = gap_statistic G s two_three_obj (OArr1 (map Fin [7; 7; 3; 3; 3])) 10 None.
Proof.
  assert (H : same_partition [0; 0; 1; 1; 1] [7; 7; 3; 3; 3]).
  { split; [reflexivity|]. intros i j Hi Hj. cbn in Hi, Hj. unfold label.
    do 5 (destruct i as [|i]; [do 5 (destruct j as [|j]; [cbn; split; intros; lra|]); lia|]). lia. }
  split; [exact H|]. intros G s. apply (C69_partition_only G s two_three_obj _ _ 10 None H).
Qed.
Example C69_example_scale : forall s,
  gap_statistic zero_gen s (OArr2 (mkArr 5 5 (fun i j => Fin (3 * two_three i j)))) (OArr1 (map Fin two_three_labels)) 10 None =
  gap_statistic zero_gen s two_three_obj (OArr1 (map Fin two_three_labels)) 10 None.
Proof.
  intros s. apply (C69_scale zero_gen s _ _ _ 5 two_three two_three_labels 3 10 None); try lia; try lra.
  - exists (mkArr 5 5 (fun i j => Fin (two_three i j))). repeat split. left. reflexivity.
  - exists (mkArr 5 5 (fun i j => Fin (3 * two_three i j))). repeat split. left. reflexivity.
  - left. reflexivity.
  - reflexivity.
  - intros i j _ _. unfold two_three. destruct (Nat.eqb i j); [lra|]. destruct (_ && _); [lra|]. destruct (_ && _); lra.
  - intros i _. unfold two_three. rewrite Nat.eqb_refl. reflexivity.
  - unfold valid_seed, seed_of. lia.
  - unfold valid_seed, seed_of. lia.
  - intros b i j _ Hij E. exists i, j. repeat split; try lia; [exact E|]. rewrite half_drawn by lia. lra.
Qed.

Print Assumptions C69_value.
Print Assumptions C69_partition_only.
Print Assumptions C69_global_state.
Print Assumptions C69_overwrites_state.
Print Assumptions C69_scale.
Print Assumptions C69_scale_diagonal_refuted.
Print Assumptions C69_ratio.
Print Assumptions C69_published_equal_sizes.
Print Assumptions C69_published_refuted.
Print Assumptions C69_errors.
