(** C41, C42, C43, C44, C45, C80: information measures. *)
From Coq Require Import Reals Lra Psatz String List Arith Bool Lia ZArith Permutation.
From Verif Require Import Base Num Sim_Model Dist_Model Dist_Spec Dist_Proofs Dist_Props Sums Info_Model Info_Spec Info_Proofs.
Import ListNotations.
Open Scope R_scope.

(** the argument is a one-dimensional array or a Series holding these real numbers *)
Definition holds (x : obj) (u : list R) : Prop := x = OArr1 (map Fin u) \/ x = OSeries (map Fin u).
(** a legal pair of arguments: equally many observations, at least two *)
Definition sample (x y : obj) (u v : list R) : Prop := holds x u /\ holds y v /\ length u = length v /\ (2 <= length u)%nat.

Lemma check_holds : forall x u, holds x u -> (2 <= length u)%nat -> check_1d x = Ok (map Fin u).
Proof. intros x u [->| ->] H; unfold check_1d; rewrite map_length, (proj2 (Nat.ltb_ge _ _)) by lia; reflexivity. Qed.
Lemma sample_sym : forall x y u v, sample x y u v -> sample y x v u.
Proof. intros x y u v (A & B & C & D). split; [auto|]. split; [auto|]. split; [auto|lia]. Qed.

Definition HX (bins : Z) (u : list R) : R := H1 nat (seq 0 (length u)) (Z.to_nat bins) (lab (Z.to_nat bins) u).
Definition HXY (bins : Z) (u v : list R) : R := H2 nat (seq 0 (length u)) (Z.to_nat bins) (lab (Z.to_nat bins) u) (lab (Z.to_nat bins) v).

Lemma entropies_holds : forall x y u v bins, sample x y u v -> (1 <= bins)%Z ->
  compute_entropies x y bins = Ok (Fin (HX bins u), Fin (HX bins v), Fin (HXY bins u v)).
Proof.
  intros x y u v bins (A & B & C & D) Hb. unfold compute_entropies. rewrite (check_holds x u), (check_holds y v) by (auto; lia). cbn [bind].
  rewrite entropies_real by (auto; lia). unfold HX, HXY. rewrite C. reflexivity.
Qed.
Lemma mi_holds : forall x y u v bins norm, sample x y u v -> (1 <= bins)%Z ->
  mutual_info x y (Some bins) norm = Ok (if norm then ndiv (Fin (HX bins u + HX bins v - HXY bins u v)) (nsqrt (Fin (HX bins u * HX bins v)))
                                         else Fin (HX bins u + HX bins v - HXY bins u v)).
Proof.
  intros x y u v bins norm S Hb. pose proof (entropies_holds x y u v bins S Hb) as E. destruct S as (A & B & C & D).
  unfold compute_entropies in E. unfold mutual_info. rewrite (check_holds x u), (check_holds y v) in * by (auto; lia). cbn [bind choose_bins] in *. rewrite E. reflexivity.
Qed.
Lemma vi_holds : forall x y u v bins norm, sample x y u v -> (1 <= bins)%Z ->
  var_info x y (Some bins) norm = Ok (if norm then ndiv (Fin (2 * HXY bins u v - HX bins u - HX bins v)) (Fin (HXY bins u v))
                                      else Fin (2 * HXY bins u v - HX bins u - HX bins v)).
Proof.
  intros x y u v bins norm S Hb. pose proof (entropies_holds x y u v bins S Hb) as E. destruct S as (A & B & C & D).
  unfold compute_entropies in E. unfold var_info. rewrite (check_holds x u), (check_holds y v) in * by (auto; lia). cbn [bind choose_bins] in *. rewrite E. reflexivity.
Qed.

Section Facts.
  Variable bins : Z.
  Hypothesis Hb : (1 <= bins)%Z.
  Lemma HX_nonneg : forall u, (1 <= length u)%nat -> 0 <= HX bins u.
  Proof. intros u Hu. apply H1_nonneg. rewrite seq_length. auto. Qed.
  Lemma HXY_ge_l : forall u v, length u = length v -> (1 <= length u)%nat -> HX bins u <= HXY bins u v.
  Proof. intros u v Hl Hu. apply H1_le_H2; [rewrite seq_length; auto|]. intros t _. apply bin_lt. lia. Qed.
  Lemma HXY_sym : forall u v, length u = length v -> HXY bins u v = HXY bins v u.
  Proof. intros u v Hl. unfold HXY. rewrite H2_sym, Hl. reflexivity. Qed.
  Lemma HXY_ge_r : forall u v, length u = length v -> (1 <= length u)%nat -> HX bins v <= HXY bins u v.
  Proof. intros u v Hl Hu. rewrite HXY_sym by auto. apply HXY_ge_l; [auto|lia]. Qed.
  Lemma HXY_sub : forall u v, length u = length v -> (1 <= length u)%nat -> HXY bins u v <= HX bins u + HX bins v.
  Proof.
    intros u v Hl Hu. unfold HX, HXY. rewrite <- Hl. apply H2_subadditive; [rewrite seq_length; auto| |]; intros t _; apply bin_lt; lia.
  Qed.
  Lemma HXY_self : forall u, HXY bins u u = HX bins u.
  Proof. intros u. unfold HXY, HX. rewrite H2_self; [reflexivity|]. intros t _. apply bin_lt. lia. Qed.
  Lemma HXY_tri : forall u v w, length u = length v -> length v = length w -> (1 <= length u)%nat ->
    HXY bins u w + HX bins v <= HXY bins u v + HXY bins v w.
  Proof.
    intros u v w Huv Hvw Hu. unfold HX, HXY. rewrite <- Huv. assert (L : forall z, bounded nat (seq 0 (length u)) (Z.to_nat bins) (lab (Z.to_nat bins) z)) by (intros z t _; apply bin_lt; lia).
    assert (Hs : (1 <= length (seq 0 (length u)))%nat) by (rewrite seq_length; auto).
    pose proof (H3_submodular nat _ _ Hs _ _ _ (L u) (L v) (L w)). pose proof (H2_le_H3 nat _ _ Hs (lab (Z.to_nat bins) u) _ (lab (Z.to_nat bins) w) (L v)). lra.
  Qed.
  Lemma HX_pos : forall u, (2 <= bins)%Z -> varies u -> 0 < HX bins u.
  Proof.
    intros u H2 V. assert (1 <= length u)%nat by (destruct V as (a & _ & Ha & _); destruct u; [contradiction|cbn; lia]). apply H1_varies; auto; lia.
  Qed.
  Lemma not_varies : forall u, (1 <= length u)%nat -> ~ varies u -> forall v, In v u -> v = hd 0 u.
  Proof.
    intros u Hu V v Hv. destruct (Req_dec v (hd 0 u)) as [|Hne]; [auto|]. exfalso. apply V. exists v, (hd 0 u). split; [auto|]. split; [|auto]. destruct u; [contradiction|left; auto].
  Qed.
  Lemma HX_zero : forall u, (1 <= length u)%nat -> bins = 1%Z \/ ~ varies u -> HX bins u = 0.
  Proof.
    intros u Hu [->|V].
    - apply H1_one_bin; auto.
    - apply (H1_constant (Z.to_nat bins) ltac:(lia) (length u) Hu u (hd 0 u) eq_refl). apply not_varies; auto.
  Qed.
End Facts.

(* ------------------------------------------------------------------ *)
(** ** C80 The entropies are the textbook ones *)

(** Whatever labelling of the observations by equal-width cells one uses, the three numbers returned are the Shannon
    entropies of the labels; and such a labelling exists. *)
Theorem C80_entropies_are_shannon : forall x y u v bins, sample x y u v -> (1 <= bins)%Z ->
  (exists lx ly, discretises (Z.to_nat bins) u lx /\ discretises (Z.to_nat bins) v ly)
  /\ forall lx ly, discretises (Z.to_nat bins) u lx -> discretises (Z.to_nat bins) v ly ->
     compute_entropies x y bins = Ok (Fin (entropy_1 (Z.to_nat bins) lx), Fin (entropy_1 (Z.to_nat bins) ly), Fin (entropy_2 (Z.to_nat bins) lx ly)).
Proof.
  intros x y u v bins S Hb. split.
  - exists (bins_of (Z.to_nat bins) u), (bins_of (Z.to_nat bins) v). split; apply bins_of_discretises; lia.
  - intros lx ly Dx Dy. rewrite (entropies_holds x y u v bins S Hb). apply discretises_unique in Dx as ->. apply discretises_unique in Dy as ->.
    unfold HX, HXY. rewrite !H1_shannon, H2_shannon; [reflexivity|apply S].
Qed.
Print Assumptions C80_entropies_are_shannon.

(** mutual_info and var_info are the usual combinations of those three numbers. *)
Theorem C80_measures : forall x y u v bins hx hy hxy, sample x y u v -> (1 <= bins)%Z ->
  compute_entropies x y bins = Ok (Fin hx, Fin hy, Fin hxy) ->
  mutual_info x y (Some bins) false = Ok (Fin (hx + hy - hxy))
  /\ var_info x y (Some bins) false = Ok (Fin ((hxy - hx) + (hxy - hy)))
  /\ (0 < hx -> 0 < hy -> mutual_info x y (Some bins) true = Ok (Fin ((hx + hy - hxy) / sqrt (hx * hy))))
  /\ (0 < hxy -> var_info x y (Some bins) true = Ok (Fin (((hxy - hx) + (hxy - hy)) / hxy))).
Proof.
  intros x y u v bins hx hy hxy S Hb E. rewrite (entropies_holds x y u v bins S Hb) in E. injection E as <- <- <-.
  rewrite !(mi_holds x y u v bins _ S Hb), !(vi_holds x y u v bins _ S Hb). split; [reflexivity|]. split; [do 2 f_equal; ring|]. split.
  - intros H1 H2. rewrite nsqrt_fin by nra. rewrite ndiv_fin; [reflexivity|]. apply Rgt_not_eq, sqrt_lt_R0. nra.
  - intros H. rewrite ndiv_fin by lra. do 3 f_equal. ring.
Qed.
Print Assumptions C80_measures.

Lemma finite_values_some : forall l u, finite_values l = Some u -> l = map Fin u.
Proof.
  induction l as [|a l IH]; intros u H; [injection H as <-; reflexivity|]. cbn in H. destruct a; try discriminate.
  destruct (finite_values l) as [t|]; [|discriminate]. injection H as <-. cbn. rewrite (IH t eq_refl). reflexivity.
Qed.
(** The arguments accepted with an explicit number of bins are exactly pairs of finite vectors of the same length, at least
    two, with at least one bin; everything else is a ValueError. *)
Theorem C80_accepts_exactly : forall x y bins norm,
  let fine := (1 <= bins)%Z /\ exists u v, sample x y u v in
  (fine -> exists r, mutual_info x y (Some bins) norm = Ok r) /\ (fine -> exists r, var_info x y (Some bins) norm = Ok r)
  /\ (~ fine -> mutual_info x y (Some bins) norm = Raise ValueError /\ var_info x y (Some bins) norm = Raise ValueError
               /\ compute_entropies x y bins = Raise ValueError).
Proof.
  intros x y bins norm fine. split; [|split].
  - intros (Hb & u & v & S). eexists. apply (mi_holds x y u v bins norm S Hb).
  - intros (Hb & u & v & S). eexists. apply (vi_holds x y u v bins norm S Hb).
  - intros Hn. unfold mutual_info, var_info, compute_entropies.
    destruct (check_1d x) as [lx|e] eqn:Ex; [|replace e with ValueError; [cbn; auto|]].
    2:{ unfold check_1d in Ex. destruct x; try (injection Ex as <-; reflexivity); destruct (Nat.ltb (length l) 2); try discriminate; injection Ex as <-; reflexivity. }
    destruct (check_1d y) as [ly|e] eqn:Ey; [|replace e with ValueError; [cbn; auto|]].
    2:{ unfold check_1d in Ey. destruct y; try (injection Ey as <-; reflexivity); destruct (Nat.ltb (length l) 2); try discriminate; injection Ey as <-; reflexivity. }
    cbn [bind choose_bins]. assert (R : entropies lx ly bins = Raise ValueError); [|rewrite R; cbn; auto].
    unfold entropies. destruct (Nat.eqb_spec (length lx) (length ly)) as [Hl|]; [|reflexivity]. cbn [negb]. unfold checked_hist.
    destruct (Z.ltb_spec bins 1) as [|Hb]; [reflexivity|]. destruct (finite_values lx) as [u|] eqn:Eu; [|reflexivity]. cbn [bind].
    destruct (finite_values ly) as [v|] eqn:Ev; [|reflexivity]. exfalso. apply Hn. split; [auto|]. exists u, v.
    apply finite_values_some in Eu as ->. apply finite_values_some in Ev as ->. rewrite !map_length in Hl.
    assert (K : forall o u0, check_1d o = Ok (map Fin u0) -> holds o u0 /\ (2 <= length u0)%nat).
    { intros o u0 E. unfold check_1d in E. destruct o; try discriminate; destruct (Nat.ltb_spec (length l) 2) as [|Hge]; try discriminate;
        injection E as ->; rewrite map_length in Hge; unfold holds; auto. }
    destruct (K _ _ Ex) as [A B]. destruct (K _ _ Ey) as [C D]. split; [auto|]. split; [auto|]. split; auto.
Qed.
Print Assumptions C80_accepts_exactly.

(** The origin and the unit of either variable do not matter. *)
Theorem C80_unit_free : forall x y x' y' u v k c k' c' bins norm, sample x y u v -> 0 < k -> 0 < k' ->
  holds x' (map (fun a => k * a + c) u) -> holds y' (map (fun a => k' * a + c') v) ->
  mutual_info x' y' (Some bins) norm = mutual_info x y (Some bins) norm /\ var_info x' y' (Some bins) norm = var_info x y (Some bins) norm.
Proof.
  intros x y x' y' u v k c k' c' bins norm S Hk Hk' Hx' Hy'.
  assert (S' : sample x' y' (map (fun a => k * a + c) u) (map (fun a => k' * a + c') v)).
  { destruct S as (A & B & C & D). unfold sample. rewrite !map_length. auto. }
  destruct (Z.le_gt_cases 1 bins) as [Hb|Hb].
  - assert (B : forall k c w, 0 < k -> bins_of (Z.to_nat bins) (map (fun a => k * a + c) w) = bins_of (Z.to_nat bins) w).
    { intros k0 c0 w H0. destruct (Exists_dec (fun a => a <> hd 0 w) w) as [V|V]; [intros a; destruct (Req_EM_T a (hd 0 w)); auto| |].
      - apply bins_of_affine; [auto|]. apply Exists_exists in V as (a & Ha & Hne). exists a, (hd 0 w). split; [auto|]. split; [|auto]. destruct w; [contradiction|left; auto].
      - assert (Cst : forall v, In v w -> v = hd 0 w).
        { intros a Ha. destruct (Req_EM_T a (hd 0 w)) as [|Hne]; [auto|]. exfalso. apply V. apply Exists_exists. exists a. auto. }
        rewrite (bins_of_constant _ (hd 0 w) w) by (auto; lia).
        rewrite (bins_of_constant _ (k0 * hd 0 w + c0) (map _ w)); [apply map_map|lia|]. intros a Ha. apply in_map_iff in Ha as (a' & <- & Ha'). rewrite (Cst a' Ha'). reflexivity. }
    assert (E : HX bins (map (fun a => k * a + c) u) = HX bins u) by (unfold HX; rewrite !H1_shannon, B by auto; reflexivity).
    assert (E' : HX bins (map (fun a => k' * a + c') v) = HX bins v) by (unfold HX; rewrite !H1_shannon, B by auto; reflexivity).
    assert (E2 : HXY bins (map (fun a => k * a + c) u) (map (fun a => k' * a + c') v) = HXY bins u v).
    { destruct S as (_ & _ & C & _). unfold HXY. rewrite !H2_shannon, !B by (rewrite ?map_length; auto). reflexivity. }
    rewrite !(mi_holds _ _ _ _ bins norm S' Hb), !(mi_holds _ _ _ _ bins norm S Hb), !(vi_holds _ _ _ _ bins norm S' Hb), !(vi_holds _ _ _ _ bins norm S Hb).
    rewrite E, E', E2. auto.
  - destruct (C80_accepts_exactly x y bins norm) as (_ & _ & R). destruct (C80_accepts_exactly x' y' bins norm) as (_ & _ & R').
    destruct R as (-> & -> & _); [intros [? _]; lia|]. destruct R' as (-> & -> & _); [intros [? _]; lia|]. auto.
Qed.
Print Assumptions C80_unit_free.

(** Nor does the order of the observations, as long as both are reordered together. *)
Theorem C80_order_free : forall x y x' y' u v u' v' bins norm, sample x y u v -> sample x' y' u' v' ->
  Permutation (combine u v) (combine u' v') ->
  mutual_info x' y' (Some bins) norm = mutual_info x y (Some bins) norm /\ var_info x' y' (Some bins) norm = var_info x y (Some bins) norm.
Proof.
  intros x y x' y' u v u' v' bins norm S S' P.
  destruct (Z.le_gt_cases 1 bins) as [Hb|Hb].
  - destruct (split_combine _ _ u v ltac:(apply S)) as [F1 F2]. destruct (split_combine _ _ u' v' ltac:(apply S')) as [F1' F2'].
    assert (Pu : Permutation u u') by (rewrite <- F1, <- F1'; apply Permutation_map; auto).
    assert (Pv : Permutation v v') by (rewrite <- F2, <- F2'; apply Permutation_map; auto).
    assert (Edge : forall l l', l <> [] -> Permutation l l' -> outer_edges l = outer_edges l').
    { intros l l' Hl Q. assert (Hl' : l' <> []) by (intros ->; apply Permutation_sym, Permutation_nil in Q; auto).
      rewrite (outer_edges_spec l' (lmin l) (lmax l)); [reflexivity|..].
      - destruct (lmin_spec l Hl) as [A B]. split; [apply (Permutation_in _ Q); auto|]. intros w Hw. apply B. apply (Permutation_in _ (Permutation_sym Q)). auto.
      - destruct (lmax_spec l Hl) as [A B]. split; [apply (Permutation_in _ Q); auto|]. intros w Hw. apply B. apply (Permutation_in _ (Permutation_sym Q)). auto. }
    assert (Nu : u <> []) by (destruct S as (_ & _ & _ & D); destruct u; [cbn in D; lia|discriminate]).
    assert (Nv : v <> []) by (destruct S as (_ & _ & C & D); rewrite C in D; destruct v; [cbn in D; lia|discriminate]).
    assert (Bp : Permutation (combine (bins_of (Z.to_nat bins) u) (bins_of (Z.to_nat bins) v)) (combine (bins_of (Z.to_nat bins) u') (bins_of (Z.to_nat bins) v'))).
    { unfold bins_of. rewrite <- (Edge u u' Nu Pu), <- (Edge v v' Nv Pv).
      assert (M : forall (f g : R -> nat) (a c : list R), combine (map f a) (map g c) = map (fun p => (f (fst p), g (snd p))) (combine a c)).
      { intros f g. induction a as [|p a IH]; intros [|q c]; cbn; [reflexivity..|]. rewrite IH. reflexivity. }
      rewrite !M. apply Permutation_map. auto. }
    assert (T1 : forall A (f : A -> bool) l l', Permutation l l' -> tally f l = tally f l').
    { intros A f l l' Q. unfold tally. induction Q; cbn; auto; [destruct (f x0); cbn; auto|destruct (f x0), (f y0); cbn; auto|congruence]. }
    assert (Lu : length u = length u') by (apply Permutation_length; auto). assert (Lv : length v = length v') by (apply Permutation_length; auto).
    assert (E1 : forall a a', length a = length a' -> Permutation (bins_of (Z.to_nat bins) a) (bins_of (Z.to_nat bins) a') -> HX bins a = HX bins a').
    { intros a a' La Q. unfold HX. rewrite !H1_shannon. unfold entropy_1, shannon. rewrite !map_map. apply rsum_ext. intros i _. unfold share.
      rewrite !count_tally, (T1 _ _ _ _ Q). unfold bins_of. rewrite !map_length, La. reflexivity. }
    assert (Eu : HX bins u = HX bins u') by (apply E1; [auto|unfold bins_of; rewrite <- (Edge u u' Nu Pu); apply Permutation_map; auto]).
    assert (Ev : HX bins v = HX bins v') by (apply E1; [auto|unfold bins_of; rewrite <- (Edge v v' Nv Pv); apply Permutation_map; auto]).
    assert (E2 : HXY bins u v = HXY bins u' v').
    { unfold HXY. rewrite !H2_shannon by (try apply S; apply S'). unfold entropy_2, shannon. rewrite !map_map. apply rsum_ext. intros [i j] _. unfold share.
      rewrite !count_tally2, (T1 _ _ _ _ Bp), (Permutation_length Bp). reflexivity. }
    rewrite !(mi_holds _ _ _ _ bins norm S' Hb), !(mi_holds _ _ _ _ bins norm S Hb), !(vi_holds _ _ _ _ bins norm S' Hb), !(vi_holds _ _ _ _ bins norm S Hb).
    rewrite Eu, Ev, E2. auto.
  - destruct (C80_accepts_exactly x y bins norm) as (_ & _ & R). destruct (C80_accepts_exactly x' y' bins norm) as (_ & _ & R').
    destruct R as (-> & -> & _); [intros [? _]; lia|]. destruct R' as (-> & -> & _); [intros [? _]; lia|]. auto.
Qed.
Print Assumptions C80_order_free.

Example C80_example : let x := OArr1 (map Fin [0; 1; 2; 4]) in let y := OSeries (map Fin [5; 5; 7; 6]) in
  sample x y [0; 1; 2; 4] [5; 5; 7; 6] /\ discretises 2 [0; 1; 2; 4] [0; 0; 1; 1]%nat.
Proof.
  split.
  - split; [left; reflexivity|]. split; [right; reflexivity|]. split; [reflexivity|cbn; lia].
  - replace [0; 0; 1; 1]%nat with (bins_of 2 [0; 1; 2; 4]); [apply bins_of_discretises; lia|].
    symmetry. apply discretises_unique. split; [reflexivity|]. intros lo hi [Ilo Llo] [Ihi Lhi].
    assert (lo = 0) by (specialize (Llo 0 ltac:(cbn; auto)); cbn in Ilo; lra). assert (hi = 4) by (specialize (Lhi 4 ltac:(cbn; auto)); cbn in Ihi; lra). subst.
    intros k Hk. split; [intros _|lra]. unfold in_cell. cbn in Hk.
    destruct k as [|[|[|[|k]]]]; [| | | |lia]; cbn [nth INR Nat.add Nat.sub]; (split; [lia|]); (split; [lra|]); first [left; lra|right; split; [reflexivity|lra]].
Qed.

(* ------------------------------------------------------------------ *)
(** ** C41 Variation of information *)

Lemma ratio_unit : forall a d, 0 < d -> 0 <= a <= d -> 0 <= a / d <= 1.
Proof.
  intros a d Hd Ha. split; [apply Rmult_le_pos; [lra|apply Rlt_le, Rinv_0_lt_compat; auto]|].
  apply Rmult_le_reg_r with d; [auto|]. unfold Rdiv. rewrite Rmult_assoc, Rinv_l by lra. lra.
Qed.
Lemma nan_0_0 : ndiv (Fin 0) (Fin 0) = NaN.
Proof. unfold ndiv. rewrite (proj2 (reqb_true 0 0)) by reflexivity. unfold sgn_inf. rewrite (proj2 (rltb_false 0 0)) by lra. reflexivity. Qed.

(** Non-negative, symmetric, zero on the same data; and zero whenever one variable is an increasing affine image of the other. *)
Theorem C41_distance : forall x y u v bins, sample x y u v -> (1 <= bins)%Z ->
  exists d, var_info x y (Some bins) false = Ok (Fin d) /\ var_info y x (Some bins) false = Ok (Fin d) /\ 0 <= d
  /\ (forall k c, varies u -> 0 < k -> v = map (fun a => k * a + c) u -> d = 0) /\ (u = v -> d = 0).
Proof.
  intros x y u v bins S Hb. pose proof (sample_sym _ _ _ _ S) as S'. rewrite (vi_holds x y u v bins false S Hb), (vi_holds y x v u bins false S' Hb).
  destruct S as (A & B & C & D). pose proof (HXY_ge_l bins Hb u v C ltac:(lia)). pose proof (HXY_ge_r bins Hb u v C ltac:(lia)).
  eexists. split; [reflexivity|]. split; [rewrite (HXY_sym bins v u) by auto; do 2 f_equal; ring|]. split; [lra|]. split.
  - intros k c V Hk ->. assert (Eb : bins_of (Z.to_nat bins) (map (fun a => k * a + c) u) = bins_of (Z.to_nat bins) u) by (apply bins_of_affine; auto).
    assert (E1 : HX bins (map (fun a => k * a + c) u) = HX bins u) by (unfold HX; rewrite !H1_shannon, Eb; reflexivity).
    assert (E2 : HXY bins u (map (fun a => k * a + c) u) = HXY bins u u) by (unfold HXY; rewrite !H2_shannon by (rewrite ?map_length; auto); rewrite Eb; reflexivity).
    rewrite E1, E2, (HXY_self bins Hb). ring.
  - intros <-. rewrite (HXY_self bins Hb). ring.
Qed.
Print Assumptions C41_distance.

Theorem C41_triangle : forall x y z u v w bins, sample x y u v -> sample y z v w -> (1 <= bins)%Z ->
  exists dxy dyz dxz, var_info x y (Some bins) false = Ok (Fin dxy) /\ var_info y z (Some bins) false = Ok (Fin dyz)
    /\ var_info x z (Some bins) false = Ok (Fin dxz) /\ dxz <= dxy + dyz.
Proof.
  intros x y z u v w bins S1 S2 Hb. assert (S3 : sample x z u w) by (destruct S1 as (A & B & C & D), S2 as (A' & B' & C' & D'); split; [auto|]; split; [auto|]; split; [congruence|auto]).
  rewrite (vi_holds _ _ _ _ bins false S1 Hb), (vi_holds _ _ _ _ bins false S2 Hb), (vi_holds _ _ _ _ bins false S3 Hb).
  do 3 eexists. split; [reflexivity|]. split; [reflexivity|]. split; [reflexivity|].
  destruct S1 as (_ & _ & C & D). destruct S2 as (_ & _ & C' & D'). pose proof (HXY_tri bins Hb u v w C C' ltac:(lia)). lra.
Qed.
Print Assumptions C41_triangle.

(** The normalised variation lies in [0,1] as soon as one of the inputs varies and there are two bins; otherwise it is NaN. *)
Theorem C41_normalised : forall x y u v bins, sample x y u v -> (1 <= bins)%Z ->
  ((2 <= bins)%Z /\ (varies u \/ varies v) -> exists d, var_info x y (Some bins) true = Ok (Fin d) /\ var_info y x (Some bins) true = Ok (Fin d)
     /\ 0 <= d <= 1 /\ (u = v -> d = 0))
  /\ (bins = 1%Z \/ (~ varies u /\ ~ varies v) -> var_info x y (Some bins) true = Ok NaN).
Proof.
  intros x y u v bins S Hb. pose proof (sample_sym _ _ _ _ S) as S'. rewrite (vi_holds x y u v bins true S Hb), (vi_holds y x v u bins true S' Hb).
  destruct S as (A & B & C & D). pose proof (HXY_ge_l bins Hb u v C ltac:(lia)) as L1. pose proof (HXY_ge_r bins Hb u v C ltac:(lia)) as L2.
  pose proof (HXY_sub bins Hb u v C ltac:(lia)) as L3. rewrite (HXY_sym bins v u) by auto. split.
  - intros [H2 V]. assert (P : 0 < HXY bins u v) by (destruct V as [V|V]; apply (HX_pos bins Hb _ H2) in V; lra).
    eexists. rewrite !ndiv_fin by lra. split; [reflexivity|]. split; [do 3 f_equal; ring|]. split; [apply ratio_unit; lra|].
    intros <-. rewrite (HXY_self bins Hb). unfold Rdiv. replace (2 * HX bins u - HX bins u - HX bins u) with 0 by ring. ring.
  - intros H. assert (Z1 : HX bins u = 0) by (apply HX_zero; [auto|lia|tauto]). assert (Z2 : HX bins v = 0) by (apply HX_zero; [auto|lia|tauto]).
    assert (Z3 : HXY bins u v = 0) by lra. rewrite Z1, Z2, Z3. replace (2 * 0 - 0 - 0) with 0 by ring. rewrite nan_0_0. reflexivity.
Qed.
Print Assumptions C41_normalised.

(** and it satisfies the triangle inequality where the three values exist *)
Theorem C41_normalised_triangle : forall x y z u v w bins dxy dyz dxz, sample x y u v -> sample y z v w -> (1 <= bins)%Z ->
  var_info x y (Some bins) true = Ok (Fin dxy) -> var_info y z (Some bins) true = Ok (Fin dyz) -> var_info x z (Some bins) true = Ok (Fin dxz) ->
  dxz <= dxy + dyz.
Proof.
  intros x y z u v w bins dxy dyz dxz S1 S2 Hb. assert (S3 : sample x z u w) by (destruct S1 as (A & B & C & D), S2 as (A' & B' & C' & D'); split; [auto|]; split; [auto|]; split; [congruence|auto]).
  rewrite (vi_holds _ _ _ _ bins true S1 Hb), (vi_holds _ _ _ _ bins true S2 Hb), (vi_holds _ _ _ _ bins true S3 Hb).
  destruct S1 as (_ & _ & C & D). destruct S2 as (_ & _ & C' & D').
  assert (Inv : forall a c e, ndiv (Fin a) (Fin c) = Fin e -> c <> 0 /\ e = a / c).
  { intros a c e. unfold ndiv. destruct (reqb c 0) eqn:E; [unfold sgn_inf; destruct (rltb 0 a); [discriminate|]; destruct (rltb a 0); discriminate|]. apply reqb_false in E. intros H. injection H as <-. auto. }
  intros E1 E2 E3. injection E1 as E1. injection E2 as E2. injection E3 as E3. apply Inv in E1 as [N1 ->]. apply Inv in E2 as [N2 ->]. apply Inv in E3 as [N3 ->].
  assert (Hu : (1 <= length u)%nat) by lia. assert (Hv : (1 <= length v)%nat) by lia. assert (Cuw : length u = length w) by congruence.
  pose proof (HXY_tri bins Hb u v w C C' Hu) as T1. pose proof (HXY_tri bins Hb w v u (eq_sym C') (eq_sym C) ltac:(lia)) as T2.
  rewrite (HXY_sym bins w u), (HXY_sym bins w v), (HXY_sym bins v u) in T2 by auto.
  pose proof (HX_nonneg bins u Hu). pose proof (HX_nonneg bins v Hv). pose proof (HX_nonneg bins w ltac:(lia)).
  pose proof (HXY_ge_l bins Hb u v C Hu). pose proof (HXY_ge_r bins Hb u v C Hu). pose proof (HXY_ge_l bins Hb v w C' Hv). pose proof (HXY_ge_r bins Hb v w C' Hv).
  pose proof (HXY_ge_l bins Hb u w Cuw Hu). pose proof (HXY_ge_r bins Hb u w Cuw Hu).
  set (hu := HX bins u) in *. set (hv := HX bins v) in *. set (hw := HX bins w) in *.
  set (a := HXY bins u v) in *. set (b := HXY bins v w) in *. set (c := HXY bins u w) in *. clearbody hu hv hw a b c.
  assert (Half : forall p q r hy hz, 0 < p -> 0 < q -> 0 < r -> hz <= r -> hy <= p -> hy <= q -> hz <= q -> 0 <= hz -> r + hy <= p + q ->
    (r - hz) / r <= (p - hy) / p + (q - hz) / q).
  { intros p q r hy hz Hp Hq Hr A1 A2 A3 A4 A5 A6. set (s := p - hy + q). assert (Hs : 0 < s) by (unfold s; lra).
    assert (Inv_le : forall m k, 0 < m -> m <= k -> / k <= / m) by (intros m k Hm Hk; apply Rinv_le_contravar; auto).
    assert (X1 : (r - hz) / r <= (s - hz) / s).
    { replace ((r - hz) / r) with (1 - hz * / r) by (field; lra). replace ((s - hz) / s) with (1 - hz * / s) by (field; lra).
      assert (/ s <= / r) by (apply Inv_le; unfold s; lra). nra. }
    assert (X2 : (p - hy) / s <= (p - hy) / p) by (unfold Rdiv; apply Rmult_le_compat_l; [lra|]; apply Inv_le; [auto|unfold s; lra]).
    assert (X3 : (q - hz) / s <= (q - hz) / q) by (unfold Rdiv; apply Rmult_le_compat_l; [lra|]; apply Inv_le; [auto|unfold s; lra]).
    assert (X4 : (s - hz) / s = (p - hy) / s + (q - hz) / s) by (unfold s; field; unfold s in Hs; lra). lra. }
  pose proof (Half a b c hv hw ltac:(lra) ltac:(lra) ltac:(lra) ltac:(lra) ltac:(lra) ltac:(lra) ltac:(lra) ltac:(lra) ltac:(lra)) as K1.
  pose proof (Half b a c hv hu ltac:(lra) ltac:(lra) ltac:(lra) ltac:(lra) ltac:(lra) ltac:(lra) ltac:(lra) ltac:(lra) ltac:(lra)) as K2.
  replace ((2 * c - hu - hw) / c) with ((c - hw) / c + (c - hu) / c) by (field; lra).
  replace ((2 * a - hu - hv) / a) with ((a - hv) / a + (a - hu) / a) by (field; lra).
  replace ((2 * b - hv - hw) / b) with ((b - hw) / b + (b - hv) / b) by (field; lra). lra.
Qed.
Print Assumptions C41_normalised_triangle.

Example C41_example : exists u v w, sample (OArr1 (map Fin u)) (OSeries (map Fin v)) u v /\ sample (OSeries (map Fin v)) (OArr1 (map Fin w)) v w
  /\ varies u /\ varies v /\ varies w.
Proof.
  exists [1; 2; 4], [3; 1; 2], [0; 0; 5]. split; [|split; [|apply C39_example]].
  - split; [left; reflexivity|]. split; [right; reflexivity|]. split; [reflexivity|cbn; lia].
  - split; [right; reflexivity|]. split; [left; reflexivity|]. split; [reflexivity|cbn; lia].
Qed.

(* ------------------------------------------------------------------ *)
(** ** C42 Mutual information *)

Theorem C42_bounds : forall x y u v bins, sample x y u v -> (1 <= bins)%Z ->
  exists d hx hy hxy, compute_entropies x y bins = Ok (Fin hx, Fin hy, Fin hxy)
    /\ mutual_info x y (Some bins) false = Ok (Fin d) /\ mutual_info y x (Some bins) false = Ok (Fin d)
    /\ 0 <= d /\ d <= hx /\ d <= hy /\ (u = v -> d = hx)
    /\ var_info x y (Some bins) false = Ok (Fin (hxy - d)).
Proof.
  intros x y u v bins S Hb. pose proof (sample_sym _ _ _ _ S) as S'.
  rewrite (mi_holds x y u v bins false S Hb), (mi_holds y x v u bins false S' Hb), (vi_holds x y u v bins false S Hb), (entropies_holds x y u v bins S Hb).
  destruct S as (A & B & C & D). pose proof (HXY_ge_l bins Hb u v C ltac:(lia)). pose proof (HXY_ge_r bins Hb u v C ltac:(lia)). pose proof (HXY_sub bins Hb u v C ltac:(lia)).
  do 4 eexists. split; [reflexivity|]. split; [reflexivity|]. split; [rewrite (HXY_sym bins v u) by auto; do 2 f_equal; ring|].
  split; [lra|]. split; [lra|]. split; [lra|]. split; [|do 2 f_equal; ring]. intros <-. rewrite (HXY_self bins Hb). ring.
Qed.
Print Assumptions C42_bounds.

(** Normalised, it is a number of [0,1] when both inputs vary and there are two bins, and NaN otherwise. *)
Theorem C42_normalised : forall x y u v bins, sample x y u v -> (1 <= bins)%Z ->
  ((2 <= bins)%Z /\ varies u /\ varies v -> exists d, mutual_info x y (Some bins) true = Ok (Fin d) /\ mutual_info y x (Some bins) true = Ok (Fin d)
     /\ 0 <= d <= 1 /\ (u = v -> d = 1))
  /\ (bins = 1%Z \/ ~ varies u \/ ~ varies v -> mutual_info x y (Some bins) true = Ok NaN).
Proof.
  intros x y u v bins S Hb. pose proof (sample_sym _ _ _ _ S) as S'. rewrite (mi_holds x y u v bins true S Hb), (mi_holds y x v u bins true S' Hb).
  destruct S as (A & B & C & D). pose proof (HXY_ge_l bins Hb u v C ltac:(lia)) as L1. pose proof (HXY_ge_r bins Hb u v C ltac:(lia)) as L2.
  pose proof (HXY_sub bins Hb u v C ltac:(lia)) as L3. rewrite (HXY_sym bins v u) by auto.
  pose proof (HX_nonneg bins u ltac:(lia)) as N1. pose proof (HX_nonneg bins v ltac:(lia)) as N2.
  rewrite !nsqrt_fin by nra. split.
  - intros [H2 [Vu Vv]]. apply (HX_pos bins Hb _ H2) in Vu. apply (HX_pos bins Hb _ H2) in Vv.
    set (a := HX bins u) in *. set (b := HX bins v) in *. set (c := HXY bins u v) in *.
    assert (Sq : 0 < sqrt (a * b)) by (apply sqrt_lt_R0; nra).
    assert (Sb : a + b - c <= sqrt (a * b)).
    { rewrite <- (sqrt_square (a + b - c)) by lra. apply sqrt_le_1_alt. nra. }
    eexists. rewrite !ndiv_fin by (try apply Rgt_not_eq, sqrt_lt_R0; nra). split; [reflexivity|]. split; [rewrite (Rmult_comm b a); do 3 f_equal; ring|].
    split; [apply ratio_unit; lra|]. intros <-. unfold c, b. rewrite (HXY_self bins Hb). fold a. rewrite sqrt_square by lra. field. lra.
  - intros H.
    assert (Z : HX bins u + HX bins v - HXY bins u v = 0 /\ HX bins u * HX bins v = 0).
    { destruct H as [->|[H|H]].
      - rewrite (HX_zero 1 ltac:(lia) u ltac:(lia)), (HX_zero 1 ltac:(lia) v ltac:(lia)) in * by auto. lra.
      - rewrite (HX_zero bins Hb u ltac:(lia)) in * by auto. lra.
      - rewrite (HX_zero bins Hb v ltac:(lia)) in * by auto. lra. }
    destruct Z as [-> ->]. rewrite sqrt_0, nan_0_0. reflexivity.
Qed.
Print Assumptions C42_normalised.

Example C42_example : exists d, mutual_info (OArr1 (map Fin [1; 2; 4])) (OArr1 (map Fin [3; 1; 2])) (Some 5%Z) true = Ok (Fin d) /\ 0 <= d <= 1.
Proof.
  destruct (C42_normalised (OArr1 (map Fin [1; 2; 4])) (OArr1 (map Fin [3; 1; 2])) [1; 2; 4] [3; 1; 2] 5%Z) as [H _].
  - split; [left; reflexivity|]. split; [left; reflexivity|]. split; [reflexivity|cbn; lia].
  - lia.
  - destruct H as (d & E & _ & B & _); [split; [lia|split; apply C39_example]|]. exists d. auto.
Qed.
