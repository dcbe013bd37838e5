(** C43, C44, C45: the divergence estimate, the automatic number of bins, the information distance matrix. *)
From Coq Require Import Reals Lra Psatz String List Arith Bool Lia ZArith.
From Verif Require Import Base Num Sim_Model Dist_Model Dist_Spec Dist_Proofs Dist_Props Sums Info_Model Info_Spec Info_Proofs Info_Props.
Import ListNotations.
Open Scope R_scope.

(* ------------------------------------------------------------------ *)
(** ** C43 Kullback-Leibler estimate *)

(** share of the observations in cell i *)
Definition prob (labels : list nat) (i : nat) : R := share Nat.eq_dec labels i.

Lemma hist_nth_prob : forall b u, (1 <= length u)%nat -> (1 <= b)%nat -> normalise (hist b u) = map (prob (bins_of b u)) (seq 0 b).
Proof.
  intros b u Hu Hb. unfold normalise. rewrite (hist_total b Hb (length u) Hu u eq_refl). unfold hist. rewrite map_map. apply map_ext. intros i.
  unfold prob, share. rewrite count_tally. unfold bins_of at 3. rewrite map_length. reflexivity.
Qed.
Lemma kl_holds : forall x y u v bins, holds x u -> holds y v -> (2 <= length u)%nat -> (2 <= length v)%nat -> (1 <= bins)%Z ->
  kl_divergence_xy x y (Some bins)
  = Ok (Fin (rsum (map (fun i => kl_term (prob (bins_of (Z.to_nat bins) u) i) (prob (bins_of (Z.to_nat bins) v) i)) (seq 0 (Z.to_nat bins))))).
Proof.
  intros x y u v bins Hx Hy Lu Lv Hb. unfold kl_divergence_xy. rewrite (check_holds x u), (check_holds y v) by auto. cbn [bind choose_bins].
  rewrite !checked_hist_real by auto. cbn [bind]. cbv zeta.
  rewrite (hist_total (Z.to_nat bins) ltac:(lia) (length u) ltac:(lia) u eq_refl), (hist_total (Z.to_nat bins) ltac:(lia) (length v) ltac:(lia) v eq_refl).
  assert (0 < INR (length u)) by (apply lt_0_INR; lia). assert (0 < INR (length v)) by (apply lt_0_INR; lia).
  rewrite !(proj2 (reqb_false _ 0)) by lra. cbn [orb]. rewrite !hist_nth_prob by lia. rewrite combine_maps, map_map. reflexivity.
Qed.
Lemma prob_nonneg : forall l i, 0 <= prob l i.
Proof.
  intros l i. unfold prob, share. destruct l as [|a l]; [cbn; unfold Rdiv; rewrite Rmult_0_l; lra|]. apply Rmult_le_pos; [apply pos_INR|].
  apply Rlt_le, Rinv_0_lt_compat, lt_0_INR. cbn. lia.
Qed.
Lemma prob_sum : forall b u, (1 <= b)%nat -> (1 <= length u)%nat -> rsum (map (prob (bins_of b u)) (seq 0 b)) = 1.
Proof.
  intros b u Hb Hu. pose proof (P1_sum nat (seq 0 (length u)) b ltac:(rewrite seq_length; auto) (lab b u) (fun t _ => bin_lt b _ _ Hb)) as P.
  unfold sumn, P1, freq in P. rewrite <- P. apply rsum_ext. intros i _. unfold prob, share. rewrite count_tally, bins_of_lab, tally_map, map_length. reflexivity.
Qed.

(** What is computed: the sum of p ln (p/q) over the cells which are non-empty in both histograms, each histogram having
    its own cells. *)
Theorem C43_formula : forall x y u v bins lx ly, holds x u -> holds y v -> (2 <= length u)%nat -> (2 <= length v)%nat -> (1 <= bins)%Z ->
  discretises (Z.to_nat bins) u lx -> discretises (Z.to_nat bins) v ly ->
  exists t, (forall i, let p := prob lx i in let q := prob ly i in (0 < p -> 0 < q -> t i = p * ln (p / q)) /\ (p = 0 \/ q = 0 -> t i = 0))
  /\ kl_divergence_xy x y (Some bins) = Ok (Fin (rsum (map t (seq 0 (Z.to_nat bins))))).
Proof.
  intros x y u v bins lx ly Hx Hy Lu Lv Hb Dx Dy. apply discretises_unique in Dx as ->. apply discretises_unique in Dy as ->.
  exists (fun i => kl_term (prob (bins_of (Z.to_nat bins) u) i) (prob (bins_of (Z.to_nat bins) v) i)). split; [|apply kl_holds; auto].
  intros i p q. unfold kl_term. fold p q. split.
  - intros Hp Hq. rewrite !(proj2 (reqb_false _ 0)) by lra. reflexivity.
  - intros [H|H]; rewrite (proj2 (reqb_true _ 0) H); cbn [negb andb]; [reflexivity|]. rewrite andb_false_r. reflexivity.
Qed.
Print Assumptions C43_formula.

Theorem C43_self_zero : forall x y u bins, holds x u -> holds y u -> (2 <= length u)%nat -> (1 <= bins)%Z ->
  kl_divergence_xy x y (Some bins) = Ok (Fin 0).
Proof.
  intros x y u bins Hx Hy Lu Hb. rewrite (kl_holds x y u u bins) by auto. do 2 f_equal. rewrite (rsum_ext _ _ (fun _ => 0)); [rewrite rsum_const; ring|].
  intros i _. unfold kl_term. destruct (reqb (prob _ i) 0) eqn:E; [reflexivity|]. cbn [negb andb]. apply reqb_false in E. unfold Rdiv. rewrite Rinv_r by auto. rewrite ln_1. ring.
Qed.
Print Assumptions C43_self_zero.

(** blind to shifts and positive rescalings: two samples of the same shape have divergence 0, wherever they are *)
Theorem C43_blind : forall x y x' u v k c bins, holds x u -> holds y v -> (2 <= length u)%nat -> (2 <= length v)%nat -> (1 <= bins)%Z ->
  0 < k -> holds x' (map (fun a => k * a + c) u) ->
  kl_divergence_xy x' y (Some bins) = kl_divergence_xy x y (Some bins)
  /\ kl_divergence_xy y x' (Some bins) = kl_divergence_xy y x (Some bins)
  /\ kl_divergence_xy x x' (Some bins) = Ok (Fin 0).
Proof.
  intros x y x' u v k c bins Hx Hy Lu Lv Hb Hk Hx'.
  assert (Lu' : (2 <= length (map (fun a => (k * a + c)%R) u))%nat) by (rewrite map_length; auto).
  assert (B : bins_of (Z.to_nat bins) (map (fun a => k * a + c) u) = bins_of (Z.to_nat bins) u).
  { destruct (Exists_dec (fun a => a <> hd 0 u) u) as [V|V]; [intros a; destruct (Req_EM_T a (hd 0 u)); auto| |].
    - apply bins_of_affine; [auto|]. apply Exists_exists in V as (a & Ha & Hne). exists a, (hd 0 u). split; [auto|]. split; [|auto]. destruct u; [contradiction|left; auto].
    - assert (Cst : forall v, In v u -> v = hd 0 u).
      { intros a Ha. destruct (Req_EM_T a (hd 0 u)) as [|Hne]; [auto|]. exfalso. apply V. apply Exists_exists. exists a. auto. }
      rewrite (bins_of_constant _ (hd 0 u) u) by (auto; lia).
      rewrite (bins_of_constant _ (k * hd 0 u + c) (map _ u)); [apply map_map|lia|]. intros a Ha. apply in_map_iff in Ha as (a' & <- & Ha'). rewrite (Cst a' Ha'). reflexivity. }
  rewrite (kl_holds x' y _ v bins Hx' Hy Lu' Lv Hb), (kl_holds x y u v bins Hx Hy Lu Lv Hb), (kl_holds y x' v _ bins Hy Hx' Lv Lu' Hb), (kl_holds y x v u bins Hy Hx Lv Lu Hb), B. split; [reflexivity|]. split; [reflexivity|].
  rewrite (kl_holds x x' u _ bins Hx Hx' Lu Lu' Hb), B. rewrite <- (kl_holds x x u u bins) by auto. apply (C43_self_zero x x u); auto.
Qed.
Print Assumptions C43_blind.

(** It is non-negative when no cell is populated by x only ... *)
Theorem C43_nonneg_when_covered : forall x y u v bins lx ly, holds x u -> holds y v -> (2 <= length u)%nat -> (2 <= length v)%nat -> (1 <= bins)%Z ->
  discretises (Z.to_nat bins) u lx -> discretises (Z.to_nat bins) v ly -> (forall i, In i lx -> In i ly) ->
  exists d, kl_divergence_xy x y (Some bins) = Ok (Fin d) /\ 0 <= d.
Proof.
  intros x y u v bins lx ly Hx Hy Lu Lv Hb Dx Dy Cov. apply discretises_unique in Dx as ->. apply discretises_unique in Dy as ->.
  rewrite (kl_holds x y u v bins) by auto. eexists. split; [reflexivity|].
  set (p := prob (bins_of (Z.to_nat bins) u)) in *. set (q := prob (bins_of (Z.to_nat bins) v)) in *.
  apply Rle_trans with (rsum (map (fun i => p i - q i) (seq 0 (Z.to_nat bins)))).
  - unfold Rminus. rewrite rsum_plus. rewrite (rsum_ext _ (fun i => - q i) (fun i => -1 * q i)) by (intros; ring). rewrite rsum_scal.
    unfold p, q. rewrite !prob_sum by lia. lra.
  - apply rsum_le. intros i _. unfold kl_term. pose proof (prob_nonneg (bins_of (Z.to_nat bins) u) i) as Hp. pose proof (prob_nonneg (bins_of (Z.to_nat bins) v) i) as Hq. fold (p i) in Hp. fold (q i) in Hq.
    destruct (reqb (p i) 0) eqn:E1; cbn [negb andb]; [apply reqb_true in E1; lra|]. apply reqb_false in E1.
    assert (Q : 0 < q i).
    { assert (In i (bins_of (Z.to_nat bins) v)).
      { apply Cov. apply (proj2 (count_occ_In Nat.eq_dec _ _)). destruct (count_occ Nat.eq_dec (bins_of (Z.to_nat bins) u) i) eqn:Z; [|lia].
        exfalso. apply E1. unfold p, prob, share. rewrite Z. cbn. unfold Rdiv. ring. }
      unfold q, prob, share. apply Rmult_lt_0_compat; [apply lt_0_INR; apply (proj1 (count_occ_In Nat.eq_dec _ _)) in H; lia|].
      apply Rinv_0_lt_compat, lt_0_INR. destruct (bins_of (Z.to_nat bins) v); [contradiction|cbn; lia]. }
    rewrite (proj2 (reqb_false (q i) 0)) by lra. cbn [negb andb]. assert (0 < p i) by lra.
    assert (L : ln (q i / p i) <= q i / p i - 1) by (apply ln_le_sub1; apply Rmult_lt_0_compat; [auto|apply Rinv_0_lt_compat; auto]).
    assert (E : ln (p i / q i) = - ln (q i / p i)).
    { rewrite <- ln_Rinv by (apply Rmult_lt_0_compat; [auto|apply Rinv_0_lt_compat; auto]). f_equal. field. lra. }
    rewrite E. apply (Rmult_le_compat_l (p i)) in L; [|lra]. replace (p i * (q i / p i - 1)) with (q i - p i) in L by (field; lra). lra.
Qed.
Print Assumptions C43_nonneg_when_covered.

(** ... but not in general: mass of x in cells empty in y is dropped. *)
Theorem C43_nonneg_refuted : exists x y u v bins d, holds x u /\ holds y v /\ length u = length v /\ kl_divergence_xy x y (Some bins) = Ok (Fin d) /\ d < 0.
Proof.
  exists (OArr1 (map Fin [0; 3 / 2; 3])), (OArr1 (map Fin [0; 0; 3])), [0; 3 / 2; 3], [0; 0; 3], 3%Z. eexists.
  split; [left; reflexivity|]. split; [left; reflexivity|]. split; [reflexivity|]. split.
  - apply kl_holds; [left; reflexivity..|cbn; lia|cbn; lia|lia].
  - assert (Ex : bins_of 3 [0; 3 / 2; 3] = [0; 1; 2]%nat).
    { symmetry. apply discretises_unique. split; [reflexivity|]. intros lo hi [Ilo Llo] [Ihi Lhi].
      assert (lo = 0) by (specialize (Llo 0 ltac:(cbn; auto)); cbn in Ilo; lra). assert (hi = 3) by (specialize (Lhi 3 ltac:(cbn; auto)); cbn in Ihi; lra). subst.
      intros k Hk. split; [intros _|lra]. unfold in_cell. cbn in Hk.
      destruct k as [|[|[|k]]]; [| | |lia]; cbn [nth INR Nat.add Nat.sub]; (split; [lia|]); (split; [lra|]); first [left; lra|right; split; [reflexivity|lra]]. }
    assert (Ey : bins_of 3 [0; 0; 3] = [0; 0; 2]%nat).
    { symmetry. apply discretises_unique. split; [reflexivity|]. intros lo hi [Ilo Llo] [Ihi Lhi].
      assert (lo = 0) by (specialize (Llo 0 ltac:(cbn; auto)); cbn in Ilo; lra). assert (hi = 3) by (specialize (Lhi 3 ltac:(cbn; auto)); cbn in Ihi; lra). subst.
      intros k Hk. split; [intros _|lra]. unfold in_cell. cbn in Hk.
      destruct k as [|[|[|k]]]; [| | |lia]; cbn [nth INR Nat.add Nat.sub]; (split; [lia|]); (split; [lra|]); first [left; lra|right; split; [reflexivity|lra]]. }
    change (Z.to_nat 3) with 3%nat. rewrite Ex, Ey. cbn [seq map rsum fold_right]. unfold prob, share. cbn [count_occ Nat.eq_dec nat_rec nat_rect sumbool_rec sumbool_rect length].
    cbn. unfold kl_term.
    replace (1 / (1 + 1 + 1)) with (1 / 3) by lra. replace ((1 + 1) / (1 + 1 + 1)) with (2 / 3) by lra. replace (0 / (1 + 1 + 1)) with 0 by lra.
    rewrite !(proj2 (reqb_false (1 / 3) 0)) by lra. rewrite !(proj2 (reqb_false (2 / 3) 0)) by lra. rewrite !(proj2 (reqb_true 0 0)) by lra. cbn [negb andb].
    replace (1 / 3 / (1 / 3)) with 1 by lra. replace (1 / 3 / (2 / 3)) with (1 / 2) by lra. rewrite ln_1.
    assert (ln (1 / 2) < 0) by (rewrite <- ln_1; apply ln_increasing; lra). lra.
Qed.
Print Assumptions C43_nonneg_refuted.

Example C43_example : holds (OArr1 (map Fin [0; 1; 2])) [0; 1; 2] /\ kl_divergence_xy (OArr1 (map Fin [0; 1; 2])) (OSeries (map Fin [0; 1; 2])) (Some 7%Z) = Ok (Fin 0).
Proof. split; [left; reflexivity|]. apply (C43_self_zero _ _ [0; 1; 2]); [left; reflexivity|right; reflexivity|cbn; lia|lia]. Qed.

(* ------------------------------------------------------------------ *)
(** ** C44 Automatic number of bins *)

Lemma pyround_ge : forall r z, IZR z <= r -> (z <= pyround r)%Z.
Proof.
  intros r z H. apply Int_part_ge in H. unfold pyround. destruct (rltb (r - IZR (Int_part r)) (1 / 2)); [auto|]. destruct (rltb (1 / 2) _); [lia|]. destruct (Z.even _); lia.
Qed.
Lemma pyround_ge_half : forall r z, IZR z - 1 / 2 < r -> (z <= pyround r)%Z.
Proof.
  intros r z H. destruct (Rle_dec (IZR z) r) as [H'|H']; [apply pyround_ge; auto|].
  assert (A : (z - 1 <= Int_part r)%Z) by (apply Int_part_ge; rewrite minus_IZR; lra). assert (B : (Int_part r < z)%Z) by (apply Int_part_lt; lra).
  assert (E : Int_part r = (z - 1)%Z) by lia. unfold pyround. rewrite E, minus_IZR. rewrite (proj2 (rltb_false _ (1 / 2))) by lra. rewrite (proj2 (rltb_true (1 / 2) _)) by lra. lia.
Qed.
(** the rounding is Python's: to the nearest integer *)
Lemma pyround_near : forall r, r - 1 / 2 <= IZR (pyround r) <= r + 1 / 2.
Proof.
  intros r. destruct (base_Int_part r) as [A B]. unfold pyround. destruct (rltb (r - IZR (Int_part r)) (1 / 2)) eqn:E1.
  - apply rltb_true in E1. lra.
  - apply rltb_false in E1. destruct (rltb (1 / 2) (r - IZR (Int_part r))) eqn:E2; [apply rltb_true in E2; rewrite plus_IZR; lra|]. apply rltb_false in E2.
    destruct (Z.even (Int_part r)); rewrite ?plus_IZR; lra.
Qed.

Lemma univariate_z : forall n, (2 <= n)%nat -> 7 <= Rpower (8 + 324 * INR n + 12 * sqrt (36 * INR n + 729 * INR n ^ 2)) (1 / 3).
Proof.
  intros n Hn. assert (H : 2 <= INR n) by (change 2 with (INR 2); apply le_INR; auto).
  pose proof (sqrt_pos (36 * INR n + 729 * INR n ^ 2)) as Q. set (w := 8 + 324 * INR n + 12 * sqrt (36 * INR n + 729 * INR n ^ 2)).
  assert (E : 7 = Rpower (Rpower 7 (INR 3)) (1 / 3)) by (rewrite Rpower_mult; replace (INR 3 * (1 / 3)) with 1 by (cbn; lra); rewrite Rpower_1 by lra; reflexivity).
  rewrite E. apply Rle_Rpower_l; [lra|]. rewrite Rpower_pow by lra. unfold w. split; lra.
Qed.

(** For every number of observations the univariate count is at least one, and at least two from two observations on; so is the
    bivariate count for correlations strictly between -1 and 1. *)
Theorem C44_positive : forall n,
  (exists b, optimal_nb_bins n None = Ok b /\ (1 <= b)%Z /\ ((2 <= n)%nat -> (2 <= b)%Z))
  /\ forall c, -1 < c < 1 -> exists b, optimal_nb_bins n (Some (Fin c)) = Ok b /\ (1 <= b)%Z /\ ((2 <= n)%nat -> (2 <= b)%Z).
Proof.
  intros n. split.
  - unfold optimal_nb_bins. cbv zeta. eexists. split; [reflexivity|].
    set (z := Rpower (8 + 324 * INR n + 12 * sqrt (36 * INR n + 729 * INR n ^ 2)) (1 / 3)).
    assert (Hz : 0 < z) by (unfold z, Rpower; apply exp_pos).
    assert (P : 0 < 2 / (3 * z)) by (apply Rmult_lt_0_compat; [lra|apply Rinv_0_lt_compat; lra]).
    split.
    + apply pyround_ge. assert (A : 0 <= z / 6 + 2 / (3 * z) + 1 / 3 - 1); [|lra].
      replace (z / 6 + 2 / (3 * z) + 1 / 3 - 1) with ((z - 2) * (z - 2) / (6 * z)) by (field; lra).
      apply Rmult_le_pos; [apply Rle_0_sqr|apply Rlt_le, Rinv_0_lt_compat; lra].
    + intros Hn. apply pyround_ge_half. pose proof (univariate_z n Hn). fold z in H. lra.
  - intros c Hc. unfold optimal_nb_bins, nofnat. cbn [nsqr nmul nsub]. pose proof (pos_INR n) as Hn0.
    assert (Hd : 0 < 1 - c * c <= 1) by nra. unfold nsqr. cbn [nmul]. rewrite nsub_fin, ndiv_fin by lra. cbn [nadd].
    set (t := 24 * INR n / (1 - c * c)).
    assert (Ht : 24 * INR n <= t).
    { unfold t. unfold Rdiv. rewrite <- (Rmult_1_r (24 * INR n)) at 1. apply Rmult_le_compat_l; [lra|]. rewrite <- Rinv_1. apply Rinv_le_contravar; lra. }
    rewrite (nsqrt_fin (1 + t)) by lra. cbn [nadd]. pose proof (sqrt_pos (1 + t)) as Hs. rewrite nsqrt_fin by lra. cbn [nmul nround].
    eexists. split; [reflexivity|].
    assert (G : forall r, 0 <= r -> 2 * (r * r) <= 1 + sqrt (1 + t) -> r <= / sqrt 2 * sqrt (1 + sqrt (1 + t))).
    { intros r Hr Hle. assert (S2 : 0 < sqrt 2) by (apply sqrt_lt_R0; lra). apply Rmult_le_reg_l with (sqrt 2); [auto|].
      rewrite <- Rmult_assoc, Rinv_r, Rmult_1_l by lra. rewrite <- (sqrt_square r) by auto. rewrite <- sqrt_mult by nra. apply sqrt_le_1_alt. auto. }
    split.
    + apply pyround_ge. apply G; [lra|]. assert (sqrt 1 <= sqrt (1 + t)) by (apply sqrt_le_1_alt; lra). rewrite sqrt_1 in H. lra.
    + intros Hn. apply pyround_ge. apply G; [lra|]. assert (Hn2 : 2 <= INR n) by (change 2 with (INR 2); apply le_INR; auto).
      assert (sqrt (7 * 7) <= sqrt (1 + t)) by (apply sqrt_le_1_alt; lra). rewrite sqrt_square in H by lra. lra.
Qed.
Print Assumptions C44_positive.

(** With bins left out, the calls behave as with some number of at least two bins, unless the data are perfectly anti-correlated
    or one input is constant: then they fail. *)
Theorem C44_default_bins : forall x y u v, sample x y u v ->
  (varies u -> varies v -> pearson u v <> -1 -> exists b, (2 <= b)%Z
     /\ (forall norm, mutual_info x y None norm = mutual_info x y (Some b) norm /\ var_info x y None norm = var_info x y (Some b) norm)
     /\ kl_divergence_xy x y None = kl_divergence_xy x y (Some b))
  /\ (varies u -> varies v -> pearson u v = -1 -> forall norm, mutual_info x y None norm = Raise OverflowError
        /\ var_info x y None norm = Raise OverflowError /\ kl_divergence_xy x y None = Raise OverflowError)
  /\ (~ varies u \/ ~ varies v -> forall norm, mutual_info x y None norm = Raise ValueError
        /\ var_info x y None norm = Raise ValueError /\ kl_divergence_xy x y None = Raise ValueError).
Proof.
  intros x y u v (Hx & Hy & Hl & Hn).
  assert (Cx : check_1d x = Ok (map Fin u)) by (apply check_holds; auto). assert (Cy : check_1d y = Ok (map Fin v)) by (apply check_holds; auto; lia).
  assert (Lift : forall b, nb_bins_from_xy (map Fin u) (map Fin v) = Ok b ->
     (forall norm, mutual_info x y None norm = mutual_info x y (Some b) norm /\ var_info x y None norm = var_info x y (Some b) norm)
     /\ kl_divergence_xy x y None = kl_divergence_xy x y (Some b)).
  { intros b E. unfold mutual_info, var_info, kl_divergence_xy. rewrite Cx, Cy. cbn [bind choose_bins]. rewrite E. auto. }
  assert (Fail : forall e, nb_bins_from_xy (map Fin u) (map Fin v) = Raise e -> forall norm,
     mutual_info x y None norm = Raise e /\ var_info x y None norm = Raise e /\ kl_divergence_xy x y None = Raise e).
  { intros e E norm. unfold mutual_info, var_info, kl_divergence_xy. rewrite Cx, Cy. cbn [bind choose_bins]. rewrite E. auto. }
  destruct (C44_positive (length u)) as [(b1 & E1 & _ & B1) Bi].
  split; [|split].
  - intros Vu Vv Hne. pose proof (pearson_bounds u v Hl Vu Vv) as PB. unfold nb_bins_from_xy in Lift. rewrite (corrcoef_real u v Hl Vu Vv), map_length in Lift. cbn [bind] in Lift.
    destruct (neqb (Fin (pearson u v)) (Fin 1) || nltb (nabs (nsub (Fin (pearson u v)) (Fin 1))) (Fin (1 / 10 ^ 5))) eqn:D.
    + exists b1. split; [auto|]. apply Lift. auto.
    + apply orb_false_elim in D as [D _]. cbn [neqb] in D. apply reqb_false in D. destruct (Bi (pearson u v) ltac:(lra)) as (b2 & E2 & _ & B2).
      exists b2. split; [auto|]. apply Lift. auto.
  - intros Vu Vv He. apply Fail. unfold nb_bins_from_xy. rewrite (corrcoef_real u v Hl Vu Vv), map_length, He. cbn [bind neqb].
    rewrite (proj2 (reqb_false (-1) 1)) by lra. rewrite nsub_fin. cbn [orb nabs nltb]. rewrite Rabs_left by lra. rewrite (proj2 (rltb_false _ _)) by (cbn; lra).
    unfold optimal_nb_bins, nofnat, nsqr. cbn [nmul]. rewrite nsub_fin. replace (1 - -1 * -1) with 0 by ring. unfold ndiv. rewrite (proj2 (reqb_true 0 0)) by reflexivity.
    unfold sgn_inf. assert (0 < INR (length u)) by (apply lt_0_INR; lia). rewrite (proj2 (rltb_true 0 _)) by lra. cbn [nadd nsqrt nmul].
    unfold sgn_inf. rewrite (proj2 (rltb_true 0 _)) by (apply Rinv_0_lt_compat, sqrt_lt_R0; lra). reflexivity.
  - intros Hc. apply Fail. unfold nb_bins_from_xy. rewrite (corrcoef_constant u v Hl Hn Hc), map_length. reflexivity.
Qed.
Print Assumptions C44_default_bins.

(** so with the default arguments, data which vary and are not perfectly anti-correlated always get finite values in [0,1]. *)
Theorem C44_defaults_finite : forall x y u v, sample x y u v -> varies u -> varies v -> pearson u v <> -1 ->
  exists m d, mutual_info x y None true = Ok (Fin m) /\ var_info x y None true = Ok (Fin d) /\ 0 <= m <= 1 /\ 0 <= d <= 1.
Proof.
  intros x y u v S Vu Vv Hne. destruct (C44_default_bins x y u v S) as [H _]. destruct (H Vu Vv Hne) as (b & Hb & E & _). destruct (E true) as [-> ->].
  destruct (C42_normalised x y u v b S ltac:(lia)) as [M _]. destruct (M ltac:(auto)) as (m & -> & _ & Bm & _).
  destruct (C41_normalised x y u v b S ltac:(lia)) as [D _]. destruct (D ltac:(auto)) as (d & -> & _ & Bd & _). exists m, d. auto.
Qed.
Print Assumptions C44_defaults_finite.

(** a variable and its reflection: *)
Example C44_reflection_fails : forall x y u k c, holds x u -> varies u -> k < 0 -> holds y (affine k c u) -> var_info y x None true = Raise OverflowError.
Proof.
  intros x y u k c Hx V Hk Hy. assert (Hn : (2 <= length u)%nat) by (destruct V as (p & q & A & B & C); destruct u as [|r [|s u]]; cbn in *; try lia; intuition congruence).
  assert (Va : varies (affine k c u)).
  { destruct V as (p & q & A & B & C). exists (k * p + c), (k * q + c). unfold affine. split; [apply in_map_iff; exists p; split; [ring|auto]|]. split; [apply in_map_iff; exists q; split; [ring|auto]|]. intros E. apply C. nra. }
  destruct (C44_default_bins y x (affine k c u) u) as (_ & H & _).
  - split; [auto|]. split; [auto|]. unfold affine. rewrite map_length. auto.
  - apply (H Va V). rewrite pearson_affine by (auto; lra). destruct (Rlt_dec 0 k); [lra|]. rewrite pearson_self by auto. ring.
Qed.

(* ------------------------------------------------------------------ *)
(** ** C45 Information distance matrix *)

(** the value of a pair of columns *)
Definition pair_value (method : string) (a : arr2) (bins : option Z) (norm : bool) (i j : nat) : res num :=
  if String.eqb method "mutual_info" then mutual_info (OArr1 (col a i)) (OArr1 (col a j)) bins norm
  else var_info (OArr1 (col a i)) (OArr1 (col a j)) bins norm.

Lemma pairs_spec : forall m i j, In (i, j) (pairs m) <-> (i < j < m)%nat.
Proof.
  intros m i j. unfold pairs. rewrite in_flat_map. split.
  - intros (k & Hk & H). apply in_seq in Hk. apply in_map_iff in H as (l & E & Hl). injection E as -> ->. apply in_seq in Hl. lia.
  - intros H. exists i. split; [apply in_seq; lia|]. apply in_map. apply in_seq. lia.
Qed.
Lemma set_sym : forall a i j v p q, set_at (set_at a i j v) j i v p q = if (Nat.eqb p i && Nat.eqb q j) || (Nat.eqb p j && Nat.eqb q i) then v else a p q.
Proof. intros. unfold set_at. destruct (Nat.eqb p j && Nat.eqb q i), (Nat.eqb p i && Nat.eqb q j); reflexivity. Qed.
Lemma fill_pairs_ok : forall f w ps a, (forall i j, In (i, j) ps -> f i j = Ok (w i j)) -> (forall i j, In (i, j) ps -> (i < j)%nat) ->
  exists e, fill_pairs f ps a = Ok e /\
    (forall i j, In (i, j) ps -> e i j = w i j /\ e j i = w i j) /\ (forall i j, ~ In (i, j) ps -> ~ In (j, i) ps -> e i j = a i j).
Proof.
  intros f w. induction ps as [|[i j] ps IH]; intros a Hf Ho.
  - exists a. split; [reflexivity|]. split; [intros i j []|auto].
  - cbn [fill_pairs]. rewrite (Hf i j) by (left; auto). cbn [bind].
    destruct (IH (set_at (set_at a i j (w i j)) j i (w i j))) as (e & E & In1 & Out); [intros; apply Hf; right; auto|intros; apply Ho; right; auto|].
    exists e. split; [exact E|]. assert (Hij : (i < j)%nat) by (apply Ho; left; auto).
    assert (Dec : forall p : nat * nat, {In p ps} + {~ In p ps}) by (intros p; apply in_dec, pair_dec).
    split.
    + intros p q [Epq|Hin]; [injection Epq as <- <-|apply In1; auto]. destruct (Dec (i, j)) as [Hin|Hnot]; [apply In1; auto|].
      assert (Hnot' : ~ In (j, i) ps) by (intros H; assert (j < i)%nat by (apply Ho; right; auto); lia).
      rewrite !Out, !set_sym, !Nat.eqb_refl by auto. cbn. rewrite orb_true_r. auto.
    + intros p q H1 H2. rewrite Out by (intros H; first [apply H1; right; exact H|apply H2; right; exact H]). rewrite set_sym.
      destruct (Nat.eqb_spec p i), (Nat.eqb_spec q j), (Nat.eqb_spec p j), (Nat.eqb_spec q i); subst; cbn; try reflexivity; exfalso; (apply H1; left; reflexivity) || (apply H2; left; reflexivity).
Qed.
Lemma fill_pairs_fail : forall f ps a e, fill_pairs f ps a = Raise e -> exists i j, In (i, j) ps /\ f i j = Raise e.
Proof.
  intros f. induction ps as [|[i j] ps IH]; intros a e H; [discriminate|]. cbn [fill_pairs] in H. destruct (f i j) as [v|e'] eqn:E; cbn [bind] in H.
  - destruct (IH _ _ H) as (p & q & Hin & Ef). exists p, q. split; [right; auto|auto].
  - injection H as ->. exists i, j. split; [left; auto|auto].
Qed.
Lemma fill_pairs_some_fail : forall f ps a i j e, In (i, j) ps -> f i j = Raise e -> exists e', fill_pairs f ps a = Raise e'.
Proof.
  intros f. induction ps as [|[p q] ps IH]; intros a i j e Hin Hf; [contradiction|]. cbn [fill_pairs]. destruct (f p q) as [v|e'] eqn:E; cbn [bind]; [|eauto].
  destruct Hin as [Eq|Hin]; [injection Eq as -> ->; congruence|]. eapply IH; eauto.
Qed.
Definition info_method (m : string) : Prop := m = "mutual_info"%string \/ m = "var_info"%string.
Lemma method_ok : forall m, info_method m -> existsb (String.eqb m) ["mutual_info"; "var_info"]%string = true.
Proof. intros m [->| ->]; reflexivity. Qed.

(** When every pair of columns has a value, the result is the symmetric square matrix of these values, with 0 (variation of
    information) or 1 (mutual information) on the diagonal, in the container and with the labels of the input. *)
Theorem C45_matrix : forall a names m bins norm w, info_method m -> (2 <= ncol a)%nat ->
  (forall i j, (i < j < ncol a)%nat -> pair_value m a bins norm i j = Ok (w i j)) ->
  exists d, get_info_distance_matrix (OArr2 a) m bins norm = Ok (OArr2 d) /\ get_info_distance_matrix (OFrame names a) m bins norm = Ok (OFrame names d)
    /\ nrow d = ncol a /\ ncol d = ncol a
    /\ forall i j, (i < ncol a)%nat -> (j < ncol a)%nat ->
         at2 d i j = if Nat.eqb i j then Fin (if String.eqb m "mutual_info" then 1 else 0) else w (Nat.min i j) (Nat.max i j).
Proof.
  intros a names m bins norm w Hm Hc Hw. unfold get_info_distance_matrix. rewrite (method_ok m Hm). cbn [negb check_2d]. rewrite (proj2 (Nat.ltb_ge _ _)) by lia. cbn [bind]. cbv zeta.
  destruct (fill_pairs_ok (pair_value m a bins norm) w (pairs (ncol a)) (fun _ _ => Fin 0)) as (e & E & In1 & Out).
  { intros i j H. apply pairs_spec in H. auto. } { intros i j H. apply pairs_spec in H. lia. }
  replace (fun i j => (if String.eqb m "mutual_info" then mutual_info else var_info) (OArr1 (col a i)) (OArr1 (col a j)) bins norm)
    with (pair_value m a bins norm) by (unfold pair_value; destruct (String.eqb m "mutual_info"); reflexivity).
  rewrite E. cbn [bind]. eexists. split; [reflexivity|]. split; [reflexivity|]. split; [reflexivity|]. split; [reflexivity|].
  intros i j Hi Hj. cbn [at2].
  assert (Off : i <> j -> e i j = w (Nat.min i j) (Nat.max i j)).
  { intros Hne. destruct (lt_dec i j) as [H|H].
    - rewrite Nat.min_l, Nat.max_r by lia. apply In1. apply pairs_spec. lia.
    - rewrite Nat.min_r, Nat.max_l by lia. apply (In1 j i). apply pairs_spec. lia. }
  destruct (Nat.eqb_spec i j) as [->|Hne].
  - destruct (String.eqb m "mutual_info"); [rewrite Nat.eqb_refl; reflexivity|]. apply Out; intros H; apply pairs_spec in H; lia.
  - destruct (String.eqb m "mutual_info"); [rewrite (proj2 (Nat.eqb_neq i j)) by auto|]; auto.
Qed.
Print Assumptions C45_matrix.

(** If a pair of columns fails, the call fails, with the exception of some pair; other names, containers and single columns
    are rejected. *)
Theorem C45_rejects : forall X m bins norm,
  (~ info_method m -> get_info_distance_matrix X m bins norm = Raise AssertionError)
  /\ (info_method m -> (forall a, X <> OArr2 a /\ forall names, X <> OFrame names a) -> get_info_distance_matrix X m bins norm = Raise ValueError)
  /\ (forall a names, info_method m -> X = OArr2 a \/ X = OFrame names a ->
        ((ncol a < 2)%nat -> get_info_distance_matrix X m bins norm = Raise ValueError)
        /\ ((2 <= ncol a)%nat -> (exists i j e, (i < j < ncol a)%nat /\ pair_value m a bins norm i j = Raise e) ->
              exists i j e, (i < j < ncol a)%nat /\ pair_value m a bins norm i j = Raise e /\ get_info_distance_matrix X m bins norm = Raise e)).
Proof.
  intros X m bins norm. unfold get_info_distance_matrix. split; [|split].
  - intros H. replace (existsb (String.eqb m) ["mutual_info"; "var_info"]%string) with false; [reflexivity|]. symmetry. cbn [existsb].
    destruct (String.eqb_spec m "mutual_info") as [->|]; [exfalso; apply H; left; auto|]. destruct (String.eqb_spec m "var_info") as [->|]; [exfalso; apply H; right; auto|]. reflexivity.
  - intros Hm H. rewrite (method_ok m Hm). cbn [negb]. destruct X as [| |a0| | |names0 a0|]; try reflexivity; [destruct (proj1 (H a0)); auto|destruct (proj2 (H a0) names0); auto].
  - intros a names Hm HX. rewrite (method_ok m Hm). cbn [negb]. split.
    + intros Hc. destruct HX as [->| ->]; cbn [check_2d]; rewrite (proj2 (Nat.ltb_lt _ _)) by lia; reflexivity.
    + intros Hc (i & j & e & Hij & He).
      destruct (fill_pairs_some_fail (pair_value m a bins norm) (pairs (ncol a)) (fun _ _ => Fin 0) i j e) as [e' E]; [apply pairs_spec; auto|auto|].
      destruct (fill_pairs_fail _ _ _ _ E) as (p & q & Hpq & Hf). apply pairs_spec in Hpq. exists p, q, e'. split; [auto|]. split; [auto|].
      unfold pair_value in E. destruct HX as [->| ->]; cbn [check_2d]; rewrite (proj2 (Nat.ltb_ge _ _)) by lia; cbn [bind]; destruct (String.eqb m "mutual_info"); rewrite E; reflexivity.
Qed.
Print Assumptions C45_rejects.

(** For finite data and a fixed number of bins the unnormalised matrix of variations is a pseudo-metric on the columns, and
    every entry is the value of its pair in either order. *)
Theorem C45_var_info_metric : forall a x bins, real_data a x -> (2 <= nrow a)%nat -> (1 <= bins)%Z ->
  exists d D, get_info_distance_matrix (OArr2 a) "var_info" (Some bins) false = Ok (OArr2 d) /\ nrow d = ncol a /\ ncol d = ncol a
    /\ (forall i j, (i < ncol a)%nat -> (j < ncol a)%nat -> at2 d i j = Fin (D i j) /\ var_info (OArr1 (col a i)) (OArr1 (col a j)) (Some bins) false = Ok (Fin (D i j)))
    /\ (forall i j k, (i < ncol a)%nat -> (j < ncol a)%nat -> (k < ncol a)%nat -> D i i = 0 /\ 0 <= D i j /\ D i j = D j i /\ D i k <= D i j + D j k).
Proof.
  intros a x bins [Hc Hx] Hr Hb.
  set (D := fun i j => 2 * HXY bins (x i) (x j) - HX bins (x i) - HX bins (x j)).
  assert (Sm : forall i j, (i < ncol a)%nat -> (j < ncol a)%nat -> sample (OArr1 (col a i)) (OArr1 (col a j)) (x i) (x j)).
  { intros i j Hi Hj. destruct (Hx i Hi) as [Li Ei]. destruct (Hx j Hj) as [Lj Ej]. rewrite Ei, Ej. split; [left; auto|]. split; [left; auto|]. split; [congruence|lia]. }
  assert (Val : forall i j, (i < ncol a)%nat -> (j < ncol a)%nat -> var_info (OArr1 (col a i)) (OArr1 (col a j)) (Some bins) false = Ok (Fin (D i j))).
  { intros i j Hi Hj. rewrite (vi_holds _ _ _ _ bins false (Sm i j Hi Hj) Hb). reflexivity. }
  assert (Sym : forall i j, (i < ncol a)%nat -> (j < ncol a)%nat -> D i j = D j i).
  { intros i j Hi Hj. destruct (Sm i j Hi Hj) as (_ & _ & L & _). unfold D. rewrite (HXY_sym bins (x i) (x j) L). ring. }
  assert (Self : forall i, D i i = 0) by (intros i; unfold D; rewrite (HXY_self bins Hb); ring).
  destruct (C45_matrix a [] "var_info" (Some bins) false (fun i j => Fin (D i j)) (or_intror eq_refl) Hc) as (d & E & _ & N1 & N2 & Hat).
  { intros i j Hij. apply Val; lia. }
  exists d, D. split; [exact E|]. split; [exact N1|]. split; [exact N2|]. split.
  - intros i j Hi Hj. split; [|apply Val; auto]. rewrite Hat by auto. destruct (Nat.eqb_spec i j) as [->|Hne]; [rewrite Self; reflexivity|]. f_equal.
    destruct (lt_dec i j) as [H|H]; [rewrite Nat.min_l, Nat.max_r by lia; reflexivity|rewrite Nat.min_r, Nat.max_l by lia; apply Sym; auto].
  - intros i j k Hi Hj Hk. split; [apply Self|]. split; [|split; [apply Sym; auto|]].
    + destruct (C41_distance _ _ _ _ bins (Sm i j Hi Hj) Hb) as (d0 & E0 & _ & P & _). rewrite Val in E0 by auto. injection E0 as <-. auto.
    + destruct (C41_triangle _ _ _ _ _ _ bins (Sm i j Hi Hj) (Sm j k Hj Hk) Hb) as (d1 & d2 & d3 & E1 & E2 & E3 & T). rewrite Val in E1, E2, E3 by auto.
      injection E1 as <-. injection E2 as <-. injection E3 as <-. auto.
Qed.
Print Assumptions C45_var_info_metric.

Example C45_example : let a := mkArr 3 2 (fun i j => Fin (INR (i * (1 + j)))) in
  real_data a (fun j => [INR (0 * (1 + j)); INR (1 * (1 + j)); INR (2 * (1 + j))]).
Proof. split; [cbn; lia|]. intros j Hj. split; reflexivity. Qed.
