(** C49-C51: eigenvalues, Marchenko-Pastur, reconstruction. *)
From Coq Require Import Reals Lra Psatz ZArith List Arith Bool Lia Permutation.
From Verif Require Import Base Num Sums Lin Sim_Model Cov_Model Cov_Spec Cov_Props.
Import ListNotations.
Open Scope R_scope.

(** ** C49 *)
Lemma repeat_map : forall A B (f : A -> B) x n, map f (repeat x n) = repeat (f x) n.
Proof. induction n; cbn; [reflexivity|]. rewrite IHn. reflexivity. Qed.
Lemma rsum_repeat : forall c n, rsum (repeat c n) = INR n * c.
Proof. induction n as [|n IH]; [cbn; ring|]. cbn [repeat rsum fold_right]. fold (rsum (repeat c n)). rewrite IH, S_INR. ring. Qed.
Lemma nth_repeat' : forall A (x d : A) n i, (i < n)%nat -> nth i (repeat x n) d = x.
Proof. induction n as [|n IH]; intros i Hi; [lia|]. destruct i; [reflexivity|]. cbn. apply IH. lia. Qed.
Lemma nth_skipn' : forall A (l : list A) s i d, nth i (skipn s l) d = nth (s + i) l d.
Proof. induction l as [|x l IH]; intros s i d; [rewrite skipn_nil; destruct i, (s + _)%nat; reflexivity|]. destruct s; [reflexivity|]. cbn. apply IH. Qed.
Lemma nth_firstn' : forall A (l : list A) s i d, (i < s)%nat -> nth i (firstn s l) d = nth i l d.
Proof. induction l as [|x l IH]; intros s i d Hi; [rewrite firstn_nil; reflexivity|]. destruct s; [lia|]. destruct i; [reflexivity|]. cbn. apply IH. lia. Qed.

(** the mean of the part from position s on *)
Definition tail_mean (s : nat) (l : list R) : R := rsum (skipn s l) / INR (length l - s).
(** [denoised s l m]: m is l with everything from position s on replaced by the mean of that part *)
Definition denoised (s : nat) (l m : list R) : Prop :=
  length m = length l
  /\ (forall i, (i < s)%nat -> (i < length l)%nat -> nth i m 0 = nth i l 0)
  /\ (forall i, (s <= i)%nat -> (i < length l)%nat -> nth i m 0 = tail_mean s l).

Lemma slice_start_le : forall n k, (slice_start n k <= n)%nat.
Proof. intros n k. unfold slice_start. destruct (k <? 0)%Z; lia. Qed.
Lemma flatten_real : forall l k, exists m, flatten_tail (map Fin l) k = map Fin m /\ denoised (slice_start (length l) k) l m.
Proof.
  intros l k. unfold flatten_tail. rewrite map_length. set (s := slice_start (length l) k). assert (Hs : (s <= length l)%nat) by apply slice_start_le.
  destruct (Nat.eq_dec s (length l)) as [E|NE].
  - exists l. rewrite E, Nat.sub_diag. cbn [repeat]. rewrite app_nil_r. rewrite firstn_all2 by (rewrite map_length; lia). split; [reflexivity|]. split; [auto|]. split; [auto|]. intros; lia.
  - exists (firstn s l ++ repeat (tail_mean s l) (length l - s)). rewrite map_app, repeat_map, firstn_map, skipn_map.
    rewrite nmean_fin by (intros E; apply (f_equal (@length R)) in E; rewrite skipn_length in E; cbn in E; lia).
    assert (Em : rmean (skipn s l) = tail_mean s l) by (unfold rmean, tail_mean; rewrite skipn_length; reflexivity). rewrite Em.
    split; [reflexivity|]. split; [rewrite app_length, firstn_length, repeat_length; lia|]. split.
    + intros i Hi Hl. rewrite app_nth1 by (rewrite firstn_length; lia). apply nth_firstn'; auto.
    + intros i Hi Hl. rewrite app_nth2 by (rewrite firstn_length; lia). apply nth_repeat'. rewrite firstn_length. lia.
Qed.
Lemma denoised_eq : forall s l m, (s <= length l)%nat -> denoised s l m -> m = firstn s l ++ repeat (tail_mean s l) (length l - s).
Proof.
  intros s l m Hs (HL & H1 & H2). apply (nth_ext _ _ 0 0); [rewrite app_length, firstn_length, repeat_length; lia|].
  intros i Hi. destruct (Nat.lt_ge_cases i s).
  - rewrite app_nth1 by (rewrite firstn_length; lia). rewrite nth_firstn' by auto. apply H1; lia.
  - rewrite app_nth2 by (rewrite firstn_length; lia). rewrite nth_repeat' by (rewrite firstn_length; lia). apply H2; lia.
Qed.
Lemma denoised_sum : forall s l m, (s <= length l)%nat -> denoised s l m -> rsum m = rsum l.
Proof.
  intros s l m Hs HD. rewrite (denoised_eq s l m Hs HD), rsum_app, rsum_repeat. unfold tail_mean.
  replace (rsum l) with (rsum (firstn s l) + rsum (skipn s l)) by (rewrite <- rsum_app, firstn_skipn; reflexivity). f_equal. destruct (Nat.eq_dec s (length l)) as [E|NE].
  - rewrite E, Nat.sub_diag, skipn_all. cbn. ring.
  - field. apply not_0_INR. lia.
Qed.
Lemma rsum_bounds : forall l a b, (forall x, In x l -> a <= x <= b) -> INR (length l) * a <= rsum l <= INR (length l) * b.
Proof.
  induction l as [|x l IH]; intros a b H; [cbn; lra|]. cbn [length rsum fold_right]. fold (rsum l). rewrite S_INR. specialize (IH a b ltac:(intros y Hy; apply H; right; auto)). specialize (H x ltac:(left; auto)). nra.
Qed.
(** in a descending list the tail mean lies between the tail's ends, so below everything before *)
Lemma tail_mean_bounds : forall s l a b, (s < length l)%nat -> (forall i, (s <= i)%nat -> (i < length l)%nat -> a <= nth i l 0 <= b) -> a <= tail_mean s l <= b.
Proof.
  intros s l a b Hs H. unfold tail_mean. assert (P : 0 < INR (length l - s)) by (apply lt_0_INR; lia).
  pose proof (rsum_bounds (skipn s l) a b) as B. rewrite skipn_length in B. specialize (B ltac:(intros x Hx; apply (In_nth _ _ 0) in Hx as (i & Hi & <-); rewrite skipn_length in Hi; rewrite nth_skipn'; apply H; lia)).
  split.
  - apply (Rmult_le_reg_r (INR (length l - s))); auto. unfold Rdiv. rewrite Rmult_assoc, Rinv_l by lra. lra.
  - apply (Rmult_le_reg_r (INR (length l - s))); auto. unfold Rdiv. rewrite Rmult_assoc, Rinv_l by lra. lra.
Qed.
Lemma denoised_descending : forall s l m, (s <= length l)%nat -> denoised s l m -> descending l -> descending m.
Proof.
  intros s l m Hs (HL & H1 & H2) HD i j Hij Hj. rewrite HL in Hj. destruct (Nat.lt_ge_cases j s) as [Js|Js].
  - rewrite !H1 by lia. apply HD; lia.
  - rewrite (H2 j) by lia. destruct (Nat.lt_ge_cases i s) as [Is|Is].
    + rewrite H1 by lia. apply (tail_mean_bounds s l (nth (length l - 1) l 0) (nth i l 0)); [lia|]. intros k K1 K2. split; apply HD; lia.
    + rewrite (H2 i) by lia. lra.
Qed.

(** With at least as many time steps as eigenvalues and a given k: the first k values are kept (all but the last |k| for a
    negative k), the others become their mean; the sum and a descending order are preserved, and the caller's array is
    untouched. *)
Theorem C49_given_k : forall l T k, (length l <= T)%nat ->
  exists m, eigen_values_denoise (map Fin l) T (Some k) = (map Fin l, Ok (map Fin m, mkInfo false k None None))
   /\ denoised (if (k <? 0)%Z then length l - Z.to_nat (- k) else Z.to_nat k) l m
   /\ rsum m = rsum l /\ (descending l -> descending m).
Proof.
  intros l T k HT. unfold eigen_values_denoise. rewrite map_length, (proj2 (Nat.ltb_ge T (length l)) HT).
  destruct (flatten_real l k) as (m & E & D). exists m. rewrite E. split; [reflexivity|].
  assert (Hs := slice_start_le (length l) k).
  split; [|split; [apply (denoised_sum _ _ _ Hs D)|apply (denoised_descending _ _ _ Hs D)]].
  destruct D as (HL & H1 & H2). unfold slice_start in *. destruct (k <? 0)%Z; [split; [auto|split; auto]|]. split; [auto|]. split; intros i Hi Hl; [apply H1; lia|].
  rewrite Nat.min_l in * by lia. apply H2; auto.
Qed.
Print Assumptions C49_given_k.

(** With fewer time steps than eigenvalues the last ones are overwritten with zeros in the caller's array, whatever k is and
    whether or not the call succeeds, and the result is that of the call on the overwritten array; calling again changes nothing
    more.  The sum of the result is then the sum of the first T values. *)
Theorem C49_overwrites : forall values T k, (T < length values)%nat ->
  fst (eigen_values_denoise values T k) = firstn T values ++ repeat (Fin 0) (length values - T)
  /\ eigen_values_denoise (fst (eigen_values_denoise values T k)) T k = eigen_values_denoise values T k.
Proof.
  intros values T k HT. assert (F : forall k, fst (eigen_values_denoise values T k) = firstn T values ++ repeat (Fin 0) (length values - T)) by (intros k'; unfold eigen_values_denoise; rewrite (proj2 (Nat.ltb_lt T (length values)) HT); reflexivity).
  split; [apply F|]. rewrite F. unfold eigen_values_denoise.
  assert (L : length (firstn T values ++ repeat (Fin 0) (length values - T)) = length values) by (rewrite app_length, firstn_length, repeat_length; lia).
  rewrite L, (proj2 (Nat.ltb_lt T (length values)) HT).
  assert (E : firstn T (firstn T values ++ repeat (Fin 0) (length values - T)) = firstn T values).
  { rewrite firstn_app, firstn_firstn, firstn_length, Nat.min_id. replace (T - Nat.min T (length values))%nat with 0%nat by lia. cbn [firstn]. apply app_nil_r. }
  rewrite E. reflexivity.
Qed.
Print Assumptions C49_overwrites.

Theorem C49_overwrites_sum : forall l T k, (T < length l)%nat ->
  exists m, snd (eigen_values_denoise (map Fin l) T (Some k)) = Ok (map Fin m, mkInfo false k None None)
    /\ denoised (if (k <? 0)%Z then length l - Z.to_nat (- k) else Z.to_nat k) (firstn T l ++ repeat 0 (length l - T)) m /\ rsum m = rsum (firstn T l).
Proof.
  intros l T k HT. unfold eigen_values_denoise. rewrite map_length, (proj2 (Nat.ltb_lt T (length l)) HT). cbn [snd].
  set (l' := firstn T l ++ repeat 0 (length l - T)).
  assert (E : firstn T (map Fin l) ++ repeat (Fin 0) (length l - T) = map Fin l') by (unfold l'; rewrite map_app, repeat_map, firstn_map; reflexivity).
  assert (L : length l' = length l) by (unfold l'; rewrite app_length, firstn_length, repeat_length; lia).
  rewrite E. destruct (flatten_real l' k) as (m & E2 & D). exists m. rewrite E2. split; [reflexivity|]. assert (Hs := slice_start_le (length l') k). split.
  - rewrite L in *. destruct D as (HL & H1 & H2). rewrite L in *. unfold denoised. rewrite L. unfold slice_start in *. destruct (k <? 0)%Z; [split; [auto|split; auto]|]. split; [auto|]. split; intros i Hi Hl; [apply H1; lia|].
    rewrite Nat.min_l in * by lia. apply H2; auto.
  - rewrite (denoised_sum _ _ _ Hs D). unfold l'. rewrite rsum_app, rsum_repeat. ring.
Qed.
Print Assumptions C49_overwrites_sum.

(** Automatic k: it is the number of values at or above the reported noise bound, which is the upper end of the support for the
    reported variance; on a descending list exactly these come first and are kept. *)
Lemma filter_prefix : forall (p : R -> bool) l, (forall i j, (i <= j)%nat -> (j < length l)%nat -> p (nth j l 0) = true -> p (nth i l 0) = true) ->
  forall i, (i < length l)%nat -> (p (nth i l 0) = true <-> (i < length (filter p l))%nat).
Proof.
  induction l as [|x l IH]; intros H i Hi; [cbn in Hi; lia|]. cbn [filter]. cbn [length] in Hi.
  assert (H' : forall i j, (i <= j)%nat -> (j < length l)%nat -> p (nth j l 0) = true -> p (nth i l 0) = true) by (intros a b Hab Hb; apply (H (S a) (S b)); cbn; lia).
  destruct (p x) eqn:E.
  - destruct i as [|i]; [cbn; split; [lia|auto]|]. cbn [nth length]. rewrite (IH H' i) by lia. lia.
  - assert (A : forall k, (k < S (length l))%nat -> p (nth k (x :: l) 0) = false).
    { intros k Hk. destruct (p (nth k (x :: l) 0)) eqn:Ek; [|reflexivity]. apply (H 0%nat k) in Ek; [cbn in Ek; congruence|lia|cbn; lia]. }
    assert (F0 : filter p l = []).
    { clear -A. assert (Q : forall y, In y l -> p y = false) by (intros y Hy; apply (In_nth _ _ 0) in Hy as (k & Hk & <-); apply (A (S k)); lia). clear A. induction l as [|y l IH]; [reflexivity|]. cbn. rewrite (Q y) by (left; auto). apply IH. intros; apply Q; right; auto. }
    rewrite F0. cbn [length]. rewrite A by auto. split; [discriminate|lia].
Qed.
Lemma filter_map_len : forall A B (f : A -> B) p l, length (filter p (map f l)) = length (filter (fun x => p (f x)) l).
Proof. induction l as [|x l IH]; [reflexivity|]. cbn. destruct (p (f x)); cbn; rewrite IH; reflexivity. Qed.
Theorem C49_automatic_k : forall l T after r info, (length l <= T)%nat -> eigen_values_denoise (map Fin l) T None = (after, Ok (r, info)) ->
  exists var hi lo m, info = mkInfo true (i_k info) (Some var) (Some hi) /\ mp_fit T (length l) (map Fin l) = Ok var /\ mp_support var T (length l) = Ok (lo, hi)
   /\ after = map Fin l /\ r = map Fin m /\ (0 <= i_k info <= Z.of_nat (length l))%Z /\ denoised (Z.to_nat (i_k info)) l m /\ rsum m = rsum l
   /\ (descending l -> descending m /\ forall i, (i < length l)%nat -> ((i < Z.to_nat (i_k info))%nat <-> hi <= nth i l 0)).
Proof.
  intros l T after r info HT E. unfold eigen_values_denoise in E. rewrite map_length, (proj2 (Nat.ltb_ge T (length l)) HT) in E. injection E as <- E.
  destruct (mp_fit T (length l) (map Fin l)) as [var|] eqn:Ef; [|discriminate]. cbn [bind] in E. destruct (mp_support var T (length l)) as [[lo hi]|] eqn:Es; [|discriminate]. cbn [bind snd] in E.
  set (kk := length (filter (fun x => ngeb x (Fin hi)) (map Fin l))) in *. injection E as <- <-. cbn [i_k].
  assert (Kle : (kk <= length l)%nat) by (unfold kk; rewrite filter_map_len; clear; induction l as [|x l IH]; cbn; [lia|]; destruct (ngeb (Fin x) (Fin hi)); cbn; lia).
  destruct (flatten_real l (Z.of_nat kk)) as (m & E2 & D).
  assert (Ss : slice_start (length l) (Z.of_nat kk) = kk) by (unfold slice_start; rewrite (proj2 (Z.ltb_ge (Z.of_nat kk) 0)) by lia; lia). rewrite Ss in D.
  exists var, hi, lo, m. split; [reflexivity|]. split; [auto|]. split; [auto|]. split; [auto|]. split; [auto|]. split; [lia|]. rewrite Nat2Z.id. split; [auto|].
  split; [apply (denoised_sum _ _ _ Kle D)|]. intros HD. split; [apply (denoised_descending _ _ _ Kle D HD)|].
  intros i Hi. unfold kk. rewrite filter_map_len.
  pose proof (filter_prefix (fun x => ngeb (Fin x) (Fin hi)) l) as FP. rewrite <- (FP) by (auto; intros a b Hab Hb; unfold ngeb; rewrite !nleb_fin, !rleb_true; pose proof (HD a b Hab Hb); lra).
  unfold ngeb. rewrite nleb_fin, rleb_true. reflexivity.
Qed.
Print Assumptions C49_automatic_k.

Example C49_example : exists m, eigen_values_denoise (map Fin [3; 1; 1/2]) 10 (Some 1%Z) = (map Fin [3; 1; 1/2], Ok (map Fin m, mkInfo false 1 None None)) /\ nth 2 m 0 = 3/4.
Proof.
  destruct (C49_given_k [3; 1; 1/2] 10 1 ltac:(cbn; lia)) as (m & E & (HL & H1 & H2) & _). exists m. split; [exact E|]. cbn [Z.ltb Z.compare Z.to_nat] in H2. change (Pos.to_nat 1) with 1%nat in H2.
  rewrite (H2 2%nat) by (cbn; lia). unfold tail_mean. cbn. field.
Qed.

(** ** C50 *)
(** For positive counts and a non-negative variance the support [lo, hi] is the textbook one: non-negative ends with
    lo + hi = 2 var (1 + N/T) and lo hi = (var (1 - N/T))^2; with a zero count the call fails with ZeroDivisionError. *)
Theorem C50_support : forall var T N,
  ((T = 0%nat \/ N = 0%nat) -> mp_support var T N = Raise ZeroDivisionError)
  /\ ((1 <= T)%nat -> (1 <= N)%nat -> 0 <= var -> exists lo hi, mp_support var T N = Ok (lo, hi) /\ 0 <= lo <= hi
      /\ lo + hi = 2 * var * (1 + INR N / INR T) /\ lo * hi = (var * (1 - INR N / INR T)) * (var * (1 - INR N / INR T))
      /\ (0 < var -> lo < hi /\ (lo = 0 <-> N = T))).
Proof.
  intros var T N. unfold mp_support. split.
  - intros [-> | ->]; cbn; [destruct (Nat.eqb N 0); reflexivity|reflexivity].
  - intros HT HN Hv. rewrite (proj2 (Nat.eqb_neq N 0)), (proj2 (Nat.eqb_neq T 0)) by lia. cbv zeta. eexists _, _. split; [reflexivity|].
    assert (PT : 0 < INR T) by (apply lt_0_INR; lia). assert (PN : 0 < INR N) by (apply lt_0_INR; lia).
    replace (1 / (INR T / INR N)) with (INR N / INR T) by (field; lra).
    assert (Pq : 0 < INR N / INR T) by (apply Rmult_lt_0_compat; [auto|apply Rinv_0_lt_compat; auto]).
    assert (Sq : sqrt (INR N / INR T) * sqrt (INR N / INR T) = INR N / INR T) by (apply sqrt_sqrt; lra). pose proof (sqrt_lt_R0 _ Pq) as Ps.
    assert (One : INR N / INR T = 1 <-> N = T).
    { split; [|intros ->; field; lra]. intros H. apply INR_eq. replace (INR N) with (INR N / INR T * INR T) by (field; lra). rewrite H. ring. }
    set (q := INR N / INR T) in *. set (w := sqrt q) in *.
    assert (A1 : 0 <= (1 - w) * (1 - w)) by (pose proof (Rle_0_sqr (1 - w)); unfold Rsqr in *; lra).
    split; [split; [nra|]|split; [|split; [|]]].
    + apply Rmult_le_compat_l; [auto|]. nra.
    + replace (var * ((1 - w) * (1 - w)) + var * ((1 + w) * (1 + w))) with (2 * var * (1 + w * w)) by ring. rewrite Sq. reflexivity.
    + replace (var * ((1 - w) * (1 - w)) * (var * ((1 + w) * (1 + w)))) with ((var * (1 - w * w)) * (var * (1 - w * w))) by ring. rewrite Sq. reflexivity.
    + intros Pv. split; [apply Rmult_lt_compat_l; [auto|]; nra|]. rewrite <- One. rewrite <- Sq. split.
      * intros H. apply Rmult_integral in H as [H|H]; [lra|]. apply Rmult_integral in H as [H|H]; assert (w = 1) by lra; nra.
      * intros H. assert (w = 1) by nra. nra.
Qed.
Print Assumptions C50_support.

(** The density: zero at and outside the ends of the support (and for values that are not finite numbers), positive and equal to the
    Marchenko-Pastur formula inside; a variance that is not positive is rejected. *)
Theorem C50_density : forall var T N values,
  (var <= 0 -> mp_pdf var T N values = Raise ValueError)
  /\ (0 < var -> (1 <= T)%nat -> (1 <= N)%nat -> exists lo hi pdf, mp_support var T N = Ok (lo, hi) /\ mp_pdf var T N values = Ok pdf /\ length pdf = length values
      /\ forall i, (i < length values)%nat ->
           match nth i values NaN with
           | Fin x => (lo < x < hi -> exists d, nth i pdf NaN = Fin d /\ 0 < d /\ d = (INR T / INR N) * sqrt ((hi - x) * (x - lo)) / (2 * PI * var * x))
                      /\ (~ lo < x < hi -> nth i pdf NaN = Fin 0)
           | _ => nth i pdf NaN = Fin 0
           end).
Proof.
  intros var T N values. split.
  - intros H. unfold mp_pdf. rewrite (proj2 (rleb_true var 0)) by auto. reflexivity.
  - intros Hv HT HN. destruct (proj2 (C50_support var T N) HT HN ltac:(lra)) as (lo & hi & E & [L0 L1] & _). exists lo, hi. unfold mp_pdf. rewrite (proj2 (rleb_false var 0)) by auto. rewrite E. cbn [bind].
    eexists. split; [reflexivity|]. split; [reflexivity|]. split; [apply map_length|]. intros i Hi.
    rewrite (nth_indep (map (mp_density var (INR T / INR N) lo hi) values) NaN (mp_density var (INR T / INR N) lo hi NaN)) by (rewrite map_length; auto). rewrite map_nth.
    destruct (nth i values NaN) as [x| | |]; unfold mp_density; cbn [nltb andb]; try reflexivity.
    split.
    + intros [X1 X2]. rewrite (proj2 (rltb_true lo x)), (proj2 (rltb_true x hi)) by auto. cbn [andb]. rewrite !nsub_fin. cbn [nmul].
      assert (PT : 0 < INR T) by (apply lt_0_INR; lia). assert (PN : 0 < INR N) by (apply lt_0_INR; lia). pose proof PI_RGT_0 as PP.
      assert (Pq : 0 < INR T / INR N) by (apply Rmult_lt_0_compat; [auto|apply Rinv_0_lt_compat; auto]).
      assert (Pd : 0 < 2 * PI * var * x) by (apply Rmult_lt_0_compat; [apply Rmult_lt_0_compat; lra|lra]).
      assert (Ps : 0 < (hi - x) * (x - lo)) by (apply Rmult_lt_0_compat; lra).
      rewrite ndiv_fin by lra. rewrite nsqrt_fin by lra. cbn [nmul]. eexists. split; [reflexivity|]. split.
      * apply Rmult_lt_0_compat; [apply Rmult_lt_0_compat; [auto|apply Rinv_0_lt_compat; auto]|apply sqrt_lt_R0; auto].
      * field. repeat split; lra.
    + intros H. destruct (rltb lo x) eqn:E1, (rltb x hi) eqn:E2; cbn [andb]; try reflexivity. exfalso. apply H. apply rltb_true in E1. apply rltb_true in E2. lra.
Qed.
Print Assumptions C50_density.

(** changing the unit of the eigenvalues *)
Theorem C50_scaling : forall c var T N (xs : list R), 0 < c -> 0 < var -> (1 <= T)%nat -> (1 <= N)%nat ->
  exists d d', mp_pdf var T N (map Fin xs) = Ok (map Fin d) /\ mp_pdf (c * var) T N (map Fin (map (Rmult c) xs)) = Ok (map Fin d') /\ d' = map (fun y => y / c) d.
Proof.
  intros c var T N xs Hc Hv HT HN. unfold mp_pdf. rewrite (proj2 (rleb_false var 0)) by auto. rewrite (proj2 (rleb_false (c * var) 0)) by nra.
  unfold mp_support. rewrite (proj2 (Nat.eqb_neq N 0)), (proj2 (Nat.eqb_neq T 0)) by lia. cbv zeta. cbn [bind].
  assert (PT : 0 < INR T) by (apply lt_0_INR; lia). assert (PN : 0 < INR N) by (apply lt_0_INR; lia).
  set (q := INR T / INR N). assert (Pq : 0 < q) by (apply Rmult_lt_0_compat; [auto|apply Rinv_0_lt_compat; auto]). set (w := sqrt (1 / q)).
  set (lo := (1 - w) * (1 - w)). set (hi := (1 + w) * (1 + w)). assert (L0 : 0 <= lo) by (pose proof (Rle_0_sqr (1 - w)); unfold lo, Rsqr in *; lra).
  set (f := fun x => if (rltb (var * lo) x && rltb x (var * hi))%bool then q / (2 * PI * var * x) * sqrt ((var * hi - x) * (x - var * lo)) else 0).
  assert (PP := PI_RGT_0).
  assert (F1 : forall v x, 0 < v -> mp_density v q (v * lo) (v * hi) (Fin x) = Fin (if (rltb (v * lo) x && rltb x (v * hi))%bool then q / (2 * PI * v * x) * sqrt ((v * hi - x) * (x - v * lo)) else 0)).
  { intros v x Pv. unfold mp_density. cbn [nltb]. destruct (rltb (v * lo) x) eqn:E1, (rltb x (v * hi)) eqn:E2; cbn [andb]; try reflexivity.
    apply rltb_true in E1. apply rltb_true in E2. rewrite !nsub_fin. cbn [nmul]. assert (0 < x) by nra. rewrite ndiv_fin by (apply Rgt_not_eq; apply Rmult_lt_0_compat; [apply Rmult_lt_0_compat; lra|lra]). rewrite nsqrt_fin by (apply Rmult_le_pos; lra). reflexivity. }
  exists (map f xs), (map (fun y => y / c) (map f xs)). split; [|split; [|reflexivity]].
  - f_equal. rewrite !map_map. apply map_ext. intros x. apply (F1 var x Hv).
  - f_equal. rewrite !map_map. apply map_ext. intros x. rewrite (F1 (c * var) (c * x)) by nra. f_equal. unfold f.
    replace (rltb (c * var * lo) (c * x)) with (rltb (var * lo) x).
    2:{ unfold rltb. destruct (Rlt_dec (var * lo) x), (Rlt_dec (c * var * lo) (c * x)); try reflexivity; exfalso; [apply n; rewrite Rmult_assoc; apply Rmult_lt_compat_l; auto|apply n; apply (Rmult_lt_reg_l c); auto; rewrite <- Rmult_assoc; auto]. }
    replace (rltb (c * x) (c * var * hi)) with (rltb x (var * hi)).
    2:{ unfold rltb. destruct (Rlt_dec x (var * hi)), (Rlt_dec (c * x) (c * var * hi)); try reflexivity; exfalso; [apply n; rewrite Rmult_assoc; apply Rmult_lt_compat_l; auto|apply n; apply (Rmult_lt_reg_l c); auto; rewrite <- Rmult_assoc; auto]. }
    destruct (rltb (var * lo) x) eqn:E1, (rltb x (var * hi)) eqn:E2; cbn [andb]; try (field; lra).
    apply rltb_true in E1. apply rltb_true in E2. replace ((c * var * hi - c * x) * (c * x - c * var * lo)) with ((c * c) * ((var * hi - x) * (x - var * lo))) by ring.
    rewrite sqrt_mult by (try nra; apply Rmult_le_pos; lra). rewrite sqrt_square by lra. field. assert (0 < var * lo \/ var * lo = 0) by (destruct L0 as [L|L]; [left; nra|right; rewrite <- L; ring]). repeat split; lra.
Qed.
Print Assumptions C50_scaling.

(** The fit scans the grid 0.01, ..., 4 of a thousand evenly spaced variances and returns the first one with the largest
    log-likelihood, provided that exceeds -10^9; otherwise it returns 0. *)
Lemma mp_scan_first : forall T N values ll grid best0 v0, (forall v, In v grid -> mp_loglik T N values v = Ok (ll v)) ->
  exists v, mp_scan T N values grid best0 v0 = Ok v /\
    ((v = v0 /\ forall g, In g grid -> ngtb (ll g) best0 = false)
     \/ exists p, (p < length grid)%nat /\ v = nth p grid 0 /\ ngtb (ll v) best0 = true
         /\ (forall i, (i < length grid)%nat -> ngtb (ll (nth i grid 0)) (ll v) = false)
         /\ (forall i, (i < p)%nat -> ngeb (ll (nth i grid 0)) (ll v) = false)).
Proof.
  assert (Tr : forall a b c, ngtb a b = true -> ngtb b c = true -> ngtb a c = true).
  { intros [a| | |] [b| | |] [c| | |]; unfold ngtb; cbn; try discriminate; auto. rewrite !rltb_true. lra. }
  assert (Irr : forall a, ngtb a a = false) by (intros [a| | |]; unfold ngtb; cbn; auto; apply rltb_false; lra).
  assert (Ge : forall a b c, ngtb b c = true -> ngtb a c = false -> ngeb a b = false).
  { intros [a| | |] [b| | |] [c| | |]; unfold ngtb, ngeb, nleb; cbn; try discriminate; auto. rewrite rltb_true, rltb_false. intros H1 H2. unfold rltb, reqb. destruct (Rlt_dec b a), (Req_EM_T b a); cbn; auto; lra. }
  induction grid as [|g grid IH]; intros best0 v0 H.
  - exists v0. split; [reflexivity|]. left. split; [auto|]. intros g Hg. destruct Hg.
  - cbn [mp_scan]. rewrite (H g) by (left; auto). cbn [bind]. assert (H' : forall v, In v grid -> mp_loglik T N values v = Ok (ll v)) by (intros; apply H; right; auto).
    destruct (ngtb (ll g) best0) eqn:Eg.
    + destruct (IH (ll g) g H') as (v & Ev & [[-> Hn]|(p & Hp & -> & Hv & Hm & Hf)]).
      * exists g. split; [auto|]. right. exists 0%nat. split; [cbn; lia|]. split; [reflexivity|]. split; [auto|]. split; [|intros; lia].
        intros [|i] Hi; [cbn; apply Irr|]. cbn [nth]. apply Hn. apply nth_In. cbn in Hi. lia.
      * exists (nth p grid 0). split; [auto|]. right. exists (S p). split; [cbn; lia|]. split; [reflexivity|]. split; [apply (Tr _ _ _ Hv Eg)|]. split.
        { intros [|i] Hi; cbn [nth]; [|apply Hm; cbn in Hi; lia]. destruct (ngtb (ll g) (ll (nth p grid 0))) eqn:E; [|reflexivity]. pose proof (Tr _ _ _ E Hv) as X. rewrite Irr in X. discriminate. }
        { intros [|i] Hi; cbn [nth]; [|apply Hf; lia]. apply (Ge _ _ (ll g)); auto. }
    + destruct (IH best0 v0 H') as (v & Ev & [[-> Hn]|(p & Hp & -> & Hv & Hm & Hf)]).
      * exists v0. split; [auto|]. left. split; [auto|]. intros x [<-|Hx]; auto.
      * exists (nth p grid 0). split; [auto|]. right. exists (S p). split; [cbn; lia|]. split; [reflexivity|]. split; [auto|].
        assert (G0 : ngeb (ll g) (ll (nth p grid 0)) = false) by (apply (Ge _ _ best0); auto). split.
        { intros [|i] Hi; cbn [nth]; [|apply Hm; cbn in Hi; lia]. destruct (ngtb (ll g) (ll (nth p grid 0))) eqn:E; [|reflexivity]. unfold ngeb, nleb in G0. unfold ngtb in E. rewrite E in G0. discriminate. }
        { intros [|i] Hi; cbn [nth]; [auto|apply Hf; lia]. }
Qed.

(** the log-likelihood of variance v for eigenvalues [values] with largest value [top]: values outside the support count with
    density 1/top *)
Definition log_likelihood (T N : nat) (values : list R) (top v : R) : R :=
  let q := INR T / INR N in
  let lo := v * ((1 - sqrt (INR N / INR T)) * (1 - sqrt (INR N / INR T))) in
  let hi := v * ((1 + sqrt (INR N / INR T)) * (1 + sqrt (INR N / INR T))) in
  rsum (map (fun x => if Rlt_dec lo x then if Rlt_dec x hi then ln (q * sqrt ((hi - x) * (x - lo)) / (2 * PI * v * x)) else ln (1 / top) else ln (1 / top)) values).
Lemma fold_max : forall l x, fold_left nmaximum (map Fin l) (Fin x) = Fin (fold_left Rmax l x).
Proof. induction l as [|y l IH]; intros x; [reflexivity|]. cbn [map fold_left]. rewrite nmax_fin. apply IH. Qed.
Lemma fold_Rmax_ge : forall l x, x <= fold_left Rmax l x /\ forall y, In y l -> y <= fold_left Rmax l x.
Proof.
  induction l as [|z l IH]; intros x; [cbn; split; [lra|tauto]|]. cbn [fold_left]. destruct (IH (Rmax x z)) as [I1 I2]. pose proof (Rmax_l x z). pose proof (Rmax_r x z). split; [lra|]. intros y [<-|Hy]; [lra|auto].
Qed.
Lemma fold_Rmax_in : forall l x, In (fold_left Rmax l x) (x :: l).
Proof.
  induction l as [|z l IH]; intros x; [left; reflexivity|]. cbn [fold_left]. destruct (IH (Rmax x z)) as [H|H]; [|right; right; auto]. rewrite <- H. unfold Rmax. destruct (Rle_dec x z); [right; left|left]; reflexivity.
Qed.
Lemma fold_max_val : forall l x top, In top (x :: l) -> (forall y, In y (x :: l) -> y <= top) -> fold_left Rmax l x = top.
Proof.
  intros l x top Hin Hmax. apply Rle_antisym; [apply Hmax, fold_Rmax_in|]. destruct (fold_Rmax_ge l x) as [G1 G2]. destruct Hin as [<-|Hin]; auto.
Qed.

Lemma loglik_real : forall T N values top v, (1 <= T)%nat -> (1 <= N)%nat -> In top values -> (forall x, In x values -> x <= top) -> 0 < top -> 0 < v ->
  mp_loglik T N (map Fin values) v = Ok (Fin (log_likelihood T N values top v)).
Proof.
  intros T N values top v HT HN Hin Hmax Ht Hv. unfold mp_loglik, mp_pdf. rewrite (proj2 (rleb_false v 0)) by auto. unfold mp_support. rewrite (proj2 (Nat.eqb_neq N 0)), (proj2 (Nat.eqb_neq T 0)) by lia. cbv zeta. cbn [bind].
  assert (M : np_max (map Fin values) = Ok (Fin top)).
  { destruct values as [|x l]; [destruct Hin|]. cbn [map np_max]. rewrite fold_max, (fold_max_val l x top Hin Hmax). reflexivity. }
  rewrite M. cbn [bind]. f_equal. rewrite !map_map. unfold log_likelihood.
  assert (PT : 0 < INR T) by (apply lt_0_INR; lia). assert (PN : 0 < INR N) by (apply lt_0_INR; lia).
  replace (1 / (INR T / INR N)) with (INR N / INR T) by (field; lra). set (w := sqrt (INR N / INR T)).
  set (lo := v * ((1 - w) * (1 - w))). set (hi := v * ((1 + w) * (1 + w))). set (q := INR T / INR N).
  assert (Pq : 0 < q) by (apply Rmult_lt_0_compat; [auto|apply Rinv_0_lt_compat; auto]).
  assert (L0 : 0 <= lo) by (unfold lo; pose proof (Rle_0_sqr (1 - w)); unfold Rsqr in *; nra). pose proof PI_RGT_0 as PP.
  rewrite <- nsum_fin, map_map. f_equal. apply map_ext. intros x. unfold mp_density. cbn [nltb].
  assert (P1 : 0 < 1 / top) by (apply Rmult_lt_0_compat; [lra|apply Rinv_0_lt_compat; auto]).
  assert (Out : nlog (if ngtb (Fin 0) (Fin 0) then Fin 0 else ndiv (Fin 1) (Fin top)) = Fin (ln (1 / top))).
  { unfold ngtb. cbn [nltb]. rewrite (proj2 (rltb_false 0 0)) by lra. rewrite ndiv_fin by lra. apply nlog_fin; auto. }
  destruct (Rlt_dec lo x) as [X1|X1]; [rewrite (proj2 (rltb_true lo x)) by auto|rewrite (proj2 (rltb_false lo x)) by lra; exact Out].
  destruct (Rlt_dec x hi) as [X2|X2]; [rewrite (proj2 (rltb_true x hi)) by auto|rewrite (proj2 (rltb_false x hi)) by lra; exact Out]. cbn [andb].
  rewrite !nsub_fin. cbn [nmul]. assert (Pd : 0 < 2 * PI * v * x) by (apply Rmult_lt_0_compat; [apply Rmult_lt_0_compat; lra|lra]).
  assert (Ps : 0 < (hi - x) * (x - lo)) by (apply Rmult_lt_0_compat; lra).
  rewrite ndiv_fin by lra. rewrite nsqrt_fin by lra. cbn [nmul]. unfold ngtb. cbn [nltb].
  assert (Pos : 0 < q / (2 * PI * v * x) * sqrt ((hi - x) * (x - lo))) by (apply Rmult_lt_0_compat; [apply Rmult_lt_0_compat; [auto|apply Rinv_0_lt_compat; auto]|apply sqrt_lt_R0; auto]).
  rewrite (proj2 (rltb_true 0 _)) by exact Pos. rewrite nlog_fin by exact Pos. do 2 f_equal. field. repeat split; lra.
Qed.

Lemma mp_grid_length : length mp_grid = 1000%nat.
Proof. unfold mp_grid. rewrite map_length, seq_length. reflexivity. Qed.
Lemma mp_grid_nth : forall i, (i < 1000)%nat -> nth i mp_grid 0 = 1/100 + INR i * ((4 - 1/100) / 999).
Proof. intros i Hi. unfold mp_grid. apply (nth_seq_map R (fun i => 1/100 + INR i * ((4 - 1/100) / 999)) 1000 i 0 Hi). Qed.
Lemma mp_grid_range : forall v, In v mp_grid -> 1/100 <= v <= 4.
Proof.
  intros v Hv. apply (In_nth _ _ 0) in Hv as (i & Hi & <-). rewrite mp_grid_length in Hi. rewrite mp_grid_nth by auto.
  assert (0 <= INR i) by apply pos_INR. assert (INR i <= 999) by (replace 999 with (INR 999) by (rewrite INR_IZR_INZ; reflexivity); apply le_INR; lia). lra.
Qed.

Theorem C50_fit : forall T N values top, (1 <= T)%nat -> (1 <= N)%nat -> In top values -> (forall x, In x values -> x <= top) -> 0 < top ->
  let grid i := 1/100 + INR i * ((4 - 1/100) / 999) in
  let ll i := log_likelihood T N values top (grid i) in
  exists v, mp_fit T N (map Fin values) = Ok v
   /\ ((v = 0 /\ forall i, (i < 1000)%nat -> ll i <= -1000000000)
       \/ exists p, (p < 1000)%nat /\ v = grid p /\ -1000000000 < ll p /\ (forall i, (i < 1000)%nat -> ll i <= ll p) /\ (forall i, (i < p)%nat -> ll i < ll p)).
Proof.
  intros T N values top HT HN Hin Hmax Ht grid ll. unfold mp_fit.
  destruct (mp_scan_first T N (map Fin values) (fun v => Fin (log_likelihood T N values top v)) mp_grid (Fin (-1000000000)) 0) as (v & E & H).
  { intros v Hv. apply mp_grid_range in Hv. apply loglik_real; auto. lra. }
  exists v. split; [exact E|]. destruct H as [[-> Hn]|(p & Hp & -> & Hv & Hm & Hf)].
  - left. split; [auto|]. intros i Hi. specialize (Hn (nth i mp_grid 0) ltac:(apply nth_In; rewrite mp_grid_length; auto)). unfold ngtb in Hn. cbn [nltb] in Hn. apply rltb_false in Hn. rewrite mp_grid_nth in Hn by auto. exact Hn.
  - right. rewrite mp_grid_length in *. exists p. split; [auto|]. rewrite mp_grid_nth in * by auto. split; [reflexivity|]. unfold ngtb, ngeb in *. cbn [nltb] in *. apply rltb_true in Hv. split; [exact Hv|]. split.
    + intros i Hi. specialize (Hm i Hi). apply rltb_false in Hm. rewrite mp_grid_nth in Hm by auto. exact Hm.
    + intros i Hi. specialize (Hf i Hi). rewrite nleb_fin in Hf. apply rleb_false in Hf. rewrite mp_grid_nth in Hf by lia. exact Hf.
Qed.
Print Assumptions C50_fit.

(** on any input with positive counts and at least one value the fit returns 0 or a variance between 0.01 and 4 *)
Theorem C50_fit_total : forall T N values, (1 <= T)%nat -> (1 <= N)%nat -> values <> [] ->
  exists v, mp_fit T N values = Ok v /\ (v = 0 \/ 1/100 <= v <= 4).
Proof.
  intros T N values HT HN Hne. unfold mp_fit.
  assert (LL : forall v, In v mp_grid -> exists x, mp_loglik T N values v = Ok x).
  { intros v Hv. apply mp_grid_range in Hv. unfold mp_loglik, mp_pdf, mp_support. rewrite (proj2 (rleb_false v 0)) by lra. rewrite (proj2 (Nat.eqb_neq N 0)), (proj2 (Nat.eqb_neq T 0)) by lia. cbn [bind].
    destruct values; [congruence|]. cbn [np_max bind]. eexists. reflexivity. }
  set (ll := fun v => match mp_loglik T N values v with Ok x => x | Raise _ => NaN end).
  destruct (mp_scan_first T N values ll mp_grid (Fin (-1000000000)) 0) as (v & E & H).
  { intros v Hv. destruct (LL v Hv) as [x Hx]. unfold ll. rewrite Hx. reflexivity. }
  exists v. split; [exact E|]. destruct H as [[-> _]|(p & Hp & -> & _)]; [auto|right]. apply mp_grid_range. apply nth_In. auto.
Qed.
Print Assumptions C50_fit_total.
