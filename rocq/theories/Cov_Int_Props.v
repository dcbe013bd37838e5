(** C116: the eigenvalue functions on arrays of integers. *)
From Coq Require Import Reals Lra Psatz ZArith List Arith Bool Lia.
From Verif Require Import Base Num Sums Lin Sim_Model Cov_Model Cov_Spec Cov_Props Cov_Eig_Props Cov_Int_Model.
Import ListNotations.
Open Scope R_scope.

(** z is the whole part of the non-negative number d *)
Definition whole_part (d : R) (z : Z) : Prop := IZR z <= d < IZR z + 1.

Lemma to_int_whole : forall r, 0 <= r -> whole_part r (to_int r).
Proof. intros r H. unfold to_int, whole_part. rewrite (proj2 (rltb_false r 0)) by lra. destruct (base_Int_part r). lra. Qed.
Lemma whole_unique : forall d a b, whole_part d a -> whole_part d b -> a = b.
Proof.
  intros d a b [A1 A2] [B1 B2]. assert (IZR a < IZR b + 1) by lra. assert (IZR b < IZR a + 1) by lra.
  rewrite <- plus_IZR in *. apply lt_IZR in H, H0. lia.
Qed.

(** the largest value of the density of integers: sqrt(T/N) / (pi x) *)
Lemma density_bound : forall var T N lo hi x, 0 < var -> (1 <= T)%nat -> (1 <= N)%nat -> mp_support var T N = Ok (lo, hi) -> lo < x < hi -> 0 <= lo ->
  0 <= INR T / INR N / (2 * PI * var * x) * sqrt ((hi - x) * (x - lo)) <= sqrt (INR T / INR N) / (PI * x).
Proof.
  intros var T N lo hi x Hv HT HN Hs Hx Hl. pose proof PI_RGT_0 as Pi.
  assert (PT : 0 < INR T) by (apply lt_0_INR; lia). assert (PN : 0 < INR N) by (apply lt_0_INR; lia).
  set (q := INR T / INR N). assert (Pq : 0 < q) by (apply Rdiv_lt_0_compat; auto).
  unfold mp_support in Hs. rewrite (proj2 (Nat.eqb_neq N 0)), (proj2 (Nat.eqb_neq T 0)) in Hs by lia. cbv zeta in Hs. fold q in Hs. injection Hs as E1 E2.
  set (u := sqrt (1 / q)) in *. assert (Pu : 0 < u) by (apply sqrt_lt_R0, Rdiv_lt_0_compat; lra).
  assert (Su : u * u = 1 / q) by (apply sqrt_sqrt; left; apply Rdiv_lt_0_compat; lra).
  assert (Eu : u = / sqrt q) by (unfold u; rewrite <- sqrt_inv; f_equal; field; lra).
  pose proof (sqrt_lt_R0 q Pq) as Psq. assert (Sq : sqrt q * sqrt q = q) by (apply sqrt_sqrt; lra).
  assert (Px : 0 < x) by lra. assert (Pd : 0 < 2 * PI * var * x) by (apply Rmult_lt_0_compat; [apply Rmult_lt_0_compat; lra|lra]).
  split; [apply Rmult_le_pos; [left; apply Rdiv_lt_0_compat; lra|apply sqrt_pos]|].
  assert (B : sqrt ((hi - x) * (x - lo)) <= 2 * var * u).
  { rewrite <- (sqrt_square (2 * var * u)) by (left; apply Rmult_lt_0_compat; lra). apply sqrt_le_1_alt.
    assert (Dh : (hi - lo) / 2 = 2 * var * u) by (rewrite <- E1, <- E2; field). rewrite <- Dh. pose proof (Rle_0_sqr (x - (hi + lo) / 2)). unfold Rsqr in *. nra. }
  apply Rle_trans with (q / (2 * PI * var * x) * (2 * var * u)).
  - apply Rmult_le_compat_l; [left; apply Rdiv_lt_0_compat; lra|exact B].
  - right. rewrite Eu. rewrite <- Sq at 1. field. repeat split; lra.
Qed.

(** Each entry of the result for an array of integers is the whole part of the density; it is 0 at every eigenvalue x with
    pi x > sqrt(T/N), whatever the variance. *)
Theorem C116_density : forall var T N (values : list Z), 0 < var -> (1 <= T)%nat -> (1 <= N)%nat ->
  exists d z, mp_pdf var T N (map Fin (map IZR values)) = Ok (map Fin d) /\ mp_pdf_int var T N values = Ok z
    /\ length z = length values /\ length d = length values
    /\ (forall i, (i < length values)%nat -> whole_part (nth i d 0) (nth i z 0%Z))
    /\ (forall i, (i < length values)%nat -> (nth i values 0 <= 0)%Z \/ sqrt (INR T / INR N) < PI * IZR (nth i values 0%Z) -> nth i z 0%Z = 0%Z).
Proof.
  intros var T N values Hv HT HN. destruct (C50_density var T N (map Fin (map IZR values))) as [_ K]. destruct (K Hv HT HN) as (lo & hi & pdf & Es & Ep & Lp & V). clear K.
  destruct (C50_support var T N) as [_ S0]. destruct (S0 HT HN ltac:(lra)) as (lo' & hi' & Es' & [Hl _] & _). rewrite Es in Es'. injection Es' as <- <-. clear S0.
  rewrite !map_length in *. exists (map real_of pdf). unfold mp_pdf_int. rewrite (proj2 (rleb_false var 0)) by auto. rewrite Es. cbn [bind]. eexists.
  assert (NV : forall i, (i < length values)%nat -> nth i (map Fin (map IZR values)) NaN = Fin (IZR (nth i values 0%Z))).
  { intros i Hi. rewrite (nth_indep _ NaN (Fin (IZR 0))) by (rewrite !map_length; auto). rewrite !map_nth. reflexivity. }
  assert (FP : forall i, (i < length values)%nat -> nth i pdf NaN = Fin (nth i (map real_of pdf) 0)).
  { intros i Hi. specialize (V i Hi). rewrite NV in V by auto. rewrite (nth_indep (map real_of pdf) 0 (real_of NaN)) by (rewrite map_length, Lp; auto). rewrite map_nth.
    destruct V as [V1 V2]. destruct (Rlt_dec lo (IZR (nth i values 0%Z))) as [L1|L1]; [destruct (Rlt_dec (IZR (nth i values 0%Z)) hi) as [L2|L2]|].
    - destruct (V1 (conj L1 L2)) as (d & -> & _). reflexivity.
    - rewrite V2 by lra. reflexivity.
    - rewrite V2 by lra. reflexivity. }
  split.
  { rewrite Ep. f_equal. rewrite map_map. apply nth_ext with NaN NaN; [rewrite map_length; reflexivity|]. rewrite Lp. intros i Hi. rewrite (FP i Hi).
    rewrite (nth_indep _ NaN (Fin (real_of NaN))) by (rewrite map_length, Lp; auto). rewrite (map_nth (fun x => Fin (real_of x))). rewrite (FP i Hi). reflexivity. }
  split; [reflexivity|]. rewrite !map_length. split; [reflexivity|]. split; [exact Lp|].
  match goal with |- context[map ?f values] => set (g := f) in * end.
  assert (G : forall i, (i < length values)%nat -> nth i (map g values) 0%Z = g (nth i values 0%Z)).
  { intros i Hi. rewrite (nth_indep _ 0%Z (g 0%Z)) by (rewrite map_length; auto). apply map_nth. }
  split.
  - intros i Hi. rewrite G by auto. specialize (V i Hi). rewrite NV, FP in V by auto. set (d := nth i (map real_of pdf) 0) in *. set (x := IZR (nth i values 0%Z)) in *. destruct V as [V1 V2]. unfold g. fold x.
    destruct (rltb lo x) eqn:L1; [apply rltb_true in L1; destruct (rltb x hi) eqn:L2; [apply rltb_true in L2|apply rltb_false in L2]|apply rltb_false in L1]; cbn [andb].
    + destruct (V1 (conj L1 L2)) as (d' & Ed & Pd & E). injection Ed as ->.
      replace (INR T / INR N / (2 * PI * var * x) * sqrt ((hi - x) * (x - lo))) with d' by (rewrite E; unfold Rdiv; ring). apply to_int_whole. lra.
    + assert (E : Fin d = Fin 0) by (apply V2; lra). injection E as ->. unfold whole_part. lra.
    + assert (E : Fin d = Fin 0) by (apply V2; lra). injection E as ->. unfold whole_part. lra.
  - intros i Hi H. rewrite G by auto. set (x := nth i values 0%Z) in *. unfold g.
    destruct (rltb lo (IZR x)) eqn:L1; [apply rltb_true in L1|reflexivity]. destruct (rltb (IZR x) hi) eqn:L2; [apply rltb_true in L2|reflexivity]. cbn [andb].
    pose proof PI_RGT_0 as Pi. assert (Px : 0 < IZR x) by lra.
    destruct H as [H|H]; [apply IZR_le in H; lra|].
    pose proof (density_bound var T N lo hi (IZR x) Hv HT HN Es (conj L1 L2) Hl) as [D0 D1]. set (d := INR T / INR N / _ * _) in *.
    apply (whole_unique d); [apply to_int_whole; auto|]. split; [lra|].
    assert (sqrt (INR T / INR N) / (PI * IZR x) < 1); [|lra]. apply (Rmult_lt_reg_r (PI * IZR x)); [nra|]. unfold Rdiv. rewrite Rmult_assoc, Rinv_l by nra. lra.
Qed.
Print Assumptions C116_density.

Lemma fold_max_ge : forall l x y, In y (x :: l) -> (y <= fold_left Z.max l x)%Z.
Proof.
  induction l as [|a l IH]; intros x y Hy; cbn [fold_left].
  - destruct Hy as [<-|[]]. lia.
  - destruct Hy as [<-|[<-|Hy]].
    + apply Z.le_trans with (Z.max x a); [lia|]. apply IH. left. reflexivity.
    + apply Z.le_trans with (Z.max x a); [lia|]. apply IH. left. reflexivity.
    + apply IH. right. exact Hy.
Qed.
Lemma fold_max_le : forall l x m, (forall y, In y (x :: l) -> (y <= m)%Z) -> (fold_left Z.max l x <= m)%Z.
Proof.
  induction l as [|a l IH]; intros x m H; cbn [fold_left]; [apply H; left; reflexivity|]. apply IH. intros y [<-|Hy].
  - assert (x <= m)%Z by (apply H; left; reflexivity). assert (a <= m)%Z by (apply H; right; left; reflexivity). lia.
  - apply H. right. right. exact Hy.
Qed.
Lemma np_max_ge : forall l y, In y l -> exists m, np_max_int l = Ok m /\ (y <= m)%Z.
Proof. intros [|x l] y Hy; [destruct Hy|]. exists (fold_left Z.max l x). split; [reflexivity|]. apply fold_max_ge. exact Hy. Qed.

Lemma nsum_ninf : forall l, In NInf l -> (forall x, In x l -> x = NInf \/ exists r, x = Fin r) -> nsum l = NInf.
Proof.
  assert (P : forall l, (forall x, In x l -> x = NInf \/ exists r, x = Fin r) -> nsum l = NInf \/ exists r, nsum l = Fin r).
  { induction l as [|a l IH]; intros H; [right; exists 0; reflexivity|]. unfold nsum in *. cbn [fold_right].
    destruct (IH (fun x Hx => H x (or_intror Hx))) as [-> | (r & ->)]; destruct (H a (or_introl eq_refl)) as [-> | (b & ->)]; cbn; auto. right. eauto. }
  induction l as [|a l IH]; intros Hi H; [destruct Hi|]. unfold nsum in *. cbn [fold_right].
  destruct Hi as [->|Hi].
  - destruct (P l (fun x Hx => H x (or_intror Hx))) as [E | (r & E)]; unfold nsum in E; rewrite E; reflexivity.
  - rewrite (IH Hi (fun x Hx => H x (or_intror Hx))). destruct (H a (or_introl eq_refl)) as [-> | (b & ->)]; reflexivity.
Qed.

Lemma scan_const : forall inf T N values grid m v, (forall var, In var grid -> exists ll, mp_loglik_int inf T N values var = Ok ll /\ ngtb ll m = false) ->
  mp_scan_int inf T N values grid m v = Ok v.
Proof.
  induction grid as [|a grid IH]; intros m v H; [reflexivity|]. cbn [mp_scan_int]. destruct (H a (or_introl eq_refl)) as (ll & -> & E). cbn [bind]. rewrite E. apply IH. intros var Hv. apply H. right. exact Hv.
Qed.

(** an eigenvalue at which the whole part of the density is 0 whatever the variance *)
Definition no_density (T N : nat) (x : Z) : Prop := (x <= 0)%Z \/ sqrt (INR T / INR N) < PI * IZR x.

Lemma to_int_small : forall m, (2 <= m)%Z -> to_int (1 / IZR m) = 0%Z.
Proof.
  intros m H. apply IZR_le in H. apply (whole_unique (1 / IZR m)); [apply to_int_whole; left; apply Rdiv_lt_0_compat; lra|]. split; [left; apply Rdiv_lt_0_compat; lra|].
  apply (Rmult_lt_reg_r (IZR m)); [lra|]. unfold Rdiv. rewrite Rmult_assoc, Rinv_l by lra. lra.
Qed.

(** The variance fitted to an array of integers is 0, which the density itself does not accept, as soon as the largest eigenvalue is at least 2 and some
    eigenvalue has no density; if no eigenvalue has a density and the largest is 1, it is the first one tried, 0.01, whatever else is in the array. *)
Theorem C116_fit : forall inf T N (values : list Z), (1 <= T)%nat -> (1 <= N)%nat ->
  ((exists x, In x values /\ no_density T N x) -> (exists y, In y values /\ (2 <= y)%Z) -> mp_fit_int inf T N values = Ok 0)
  /\ ((forall x, In x values -> no_density T N x) -> In 1%Z values -> (forall x, In x values -> (x <= 1)%Z) -> mp_fit_int inf T N values = Ok (1 / 100))
  /\ mp_pdf_int 0 T N values = Raise ValueError.
Proof.
  intros inf T N values HT HN. split; [|split].
  - intros (x & Hx & Nx) (y & Hy & Y2). unfold mp_fit_int. apply scan_const. intros var Hvar. pose proof (mp_grid_range var Hvar) as Rv.
    destruct (C116_density var T N values ltac:(lra) HT HN) as (d & z & _ & Ez & Lz & Ld & W & Z0). unfold mp_loglik_int. rewrite Ez. cbn [bind].
    destruct (np_max_ge values y Hy) as (m & -> & Hm). cbn [bind]. destruct (Z.eqb_spec m 0) as [E|_]; [lia|]. rewrite to_int_small by lia. eexists. split; [reflexivity|].
    rewrite nsum_ninf; [reflexivity| |].
    + apply in_map_iff. exists 0%Z. split.
      * replace (0 >? 0)%Z with false by reflexivity. cbn [nlog]. rewrite (proj2 (rltb_false 0 0)) by lra. rewrite (proj2 (reqb_true 0 0)) by lra. reflexivity.
      * apply (In_nth _ _ 0%Z) in Hx as (i & Hi & <-). rewrite <- (Z0 i Hi Nx). apply nth_In. lia.
    + intros u Hu. apply in_map_iff in Hu as (p & <- & Hp). destruct (p >? 0)%Z eqn:Ep.
      * right. apply Z.gtb_lt in Ep. apply IZR_lt in Ep. rewrite nlog_fin by lra. eauto.
      * left. cbn [nlog]. rewrite (proj2 (rltb_false 0 0)) by lra. rewrite (proj2 (reqb_true 0 0)) by lra. reflexivity.
  - intros HN0 H1 Hle.
    assert (LL : forall var, In var mp_grid -> mp_loglik_int inf T N values var = Ok (Fin 0)).
    { intros var Hvar. pose proof (mp_grid_range var Hvar) as Rv.
      destruct (C116_density var T N values ltac:(lra) HT HN) as (d & z & _ & Ez & Lz & Ld & W & Z0). unfold mp_loglik_int. rewrite Ez. cbn [bind].
      assert (Em : np_max_int values = Ok 1%Z).
      { destruct (np_max_ge values 1%Z H1) as (m & Em & Hm). rewrite Em. f_equal. destruct values as [|a l]; [destruct H1|]. cbn [np_max_int] in Em. injection Em as <-. pose proof (fold_max_le l a 1%Z Hle). lia. }
      rewrite Em. cbn [bind]. cbn [Z.eqb]. replace (to_int (1 / IZR 1)) with 1%Z by (apply (whole_unique 1); [unfold whole_part; lra|]; replace 1 with (1 / 1) at 1 by field; apply to_int_whole; lra).
      f_equal. assert (E0 : forall p, In p z -> p = 0%Z) by (intros p Hp; apply (In_nth _ _ 0%Z) in Hp as (i & Hi & <-); apply Z0; [lia|]; apply HN0; apply nth_In; lia).
      clear - E0. induction z as [|a z IH]; [reflexivity|]. cbn [map]. unfold nsum in *. cbn [fold_right]. rewrite IH by (intros; apply E0; right; auto). rewrite (E0 a (or_introl eq_refl)).
      replace (0 >? 0)%Z with false by reflexivity. rewrite nlog_fin by lra. rewrite ln_1. cbn. f_equal. ring. }
    unfold mp_fit_int. assert (G : exists g, mp_grid = 1 / 100 :: g).
    { unfold mp_grid. change 1000%nat with (1 + 999)%nat. rewrite seq_app, map_app. cbn [seq map app]. eexists. f_equal. cbn [INR]. lra. }
    destruct G as (g & Eg). rewrite Eg in *. cbn [mp_scan_int]. rewrite (LL _ (or_introl eq_refl)). cbn [bind]. unfold ngtb. cbn [nltb]. rewrite (proj2 (rltb_true (-1000000000) 0)) by lra.
    apply scan_const. intros var Hvar. rewrite (LL _ (or_intror Hvar)). eexists. split; [reflexivity|]. unfold ngtb. cbn [nltb]. apply rltb_false. lra.
  - unfold mp_pdf_int. rewrite (proj2 (rleb_true 0 0)) by lra. reflexivity.
Qed.
Print Assumptions C116_fit.

(** Denoising non-negative integers with an automatic k, the largest at least 2 and one without density, does nothing: every eigenvalue is reported as signal. *)
Theorem C116_denoise : forall inf T (values : list Z), (1 <= length values <= T)%nat -> (forall x, In x values -> (0 <= x)%Z) ->
  (exists x, In x values /\ no_density T (length values) x) -> (exists y, In y values /\ (2 <= y)%Z) ->
  eigen_values_denoise_int inf values T None = (values, Ok (values, mkInfo true (Z.of_nat (length values)) (Some 0) (Some 0))).
Proof.
  intros inf T values HT Hp Hx Hy. unfold eigen_values_denoise_int. rewrite (proj2 (Nat.ltb_ge T (length values))) by lia.
  destruct (C116_fit inf T (length values) values ltac:(lia) ltac:(lia)) as [F _]. rewrite (F Hx Hy). cbn [bind]. unfold mp_support. rewrite (proj2 (Nat.eqb_neq (length values) 0)), (proj2 (Nat.eqb_neq T 0)) by lia. cbv zeta. cbn [bind snd].
  rewrite !Rmult_0_l. assert (L : length (filter (fun x => rleb 0 (IZR x)) values) = length values).
  { clear - Hp. induction values as [|a l IH]; [reflexivity|]. cbn [filter]. rewrite (proj2 (rleb_true 0 (IZR a))) by (apply IZR_le, Hp; left; reflexivity). cbn [length]. rewrite IH by (intros; apply Hp; right; auto). reflexivity. }
  rewrite L. f_equal. f_equal. f_equal. unfold flatten_tail_int. assert (Ss : slice_start (length values) (Z.of_nat (length values)) = length values) by (unfold slice_start; rewrite (proj2 (Z.ltb_ge _ 0)) by lia; lia).
  rewrite Ss, Nat.sub_diag, firstn_all. cbn [repeat]. apply app_nil_r.
Qed.
Print Assumptions C116_denoise.

(** With a given k, the eigenvalues from position k on become the whole part of their mean, so that the sum drops by less than one per eigenvalue replaced,
    and is unchanged exactly if the mean is whole. *)
Theorem C116_given_k : forall inf T (values : list Z) (k : nat), (k < length values)%nat -> (length values <= T)%nat -> (forall x, In x values -> (0 <= x)%Z) ->
  let tail := map IZR (skipn k values) in
  exists m out, whole_part (rsum tail / INR (length tail)) m
    /\ eigen_values_denoise_int inf values T (Some (Z.of_nat k)) = (values, Ok (out, mkInfo false (Z.of_nat k) None None))
    /\ out = firstn k values ++ repeat m (length values - k)
    /\ rsum (map IZR values) - INR (length values - k) < rsum (map IZR out) <= rsum (map IZR values)
    /\ (rsum (map IZR out) = rsum (map IZR values) <-> rsum tail / INR (length tail) = IZR m).
Proof.
  intros inf T values k Hk HT Hp tail. set (mu := rsum tail / INR (length tail)).
  assert (Lt : length tail = (length values - k)%nat) by (unfold tail; rewrite map_length, skipn_length; reflexivity).
  assert (Pn : 0 < INR (length tail)) by (apply lt_0_INR; lia).
  assert (Pm : 0 <= mu).
  { unfold mu. apply Rmult_le_pos; [|left; apply Rinv_0_lt_compat; auto]. apply rsum_nonneg. intros r Hr. unfold tail in Hr. apply in_map_iff in Hr as (x & <- & Hx). apply IZR_le, Hp.
    rewrite <- (firstn_skipn k values). apply in_or_app. right. exact Hx. }
  exists (to_int mu), (firstn k values ++ repeat (to_int mu) (length values - k)). pose proof (to_int_whole mu Pm) as W. split; [exact W|]. split.
  { unfold eigen_values_denoise_int. rewrite (proj2 (Nat.ltb_ge T (length values))) by lia. unfold flatten_tail_int. assert (Ss : slice_start (length values) (Z.of_nat k) = k) by (unfold slice_start; rewrite (proj2 (Z.ltb_ge _ 0)) by lia; lia). rewrite Ss. reflexivity. }
  split; [reflexivity|]. rewrite map_app, rsum_app.
  assert (Er : map IZR (repeat (to_int mu) (length values - k)) = repeat (IZR (to_int mu)) (length values - k)) by (clear; induction (length values - k)%nat as [|n IH]; [reflexivity|]; cbn [repeat map]; rewrite IH; reflexivity).
  rewrite Er, rsum_repeat. assert (Es : rsum (map IZR values) = rsum (map IZR (firstn k values)) + rsum tail) by (unfold tail; rewrite <- rsum_app, <- map_app, firstn_skipn; reflexivity).
  rewrite Es. assert (Em : rsum tail = INR (length values - k) * mu) by (unfold mu; rewrite <- Lt; field; lra). rewrite Em. rewrite <- Lt. destruct W as [W1 W2]. split; [split; nra|].
  split; intros E; [|rewrite <- E; ring]. apply (Rmult_eq_reg_l (INR (length tail))); lra.
Qed.
Print Assumptions C116_given_k.

(** the eigenvalues 3, 1, 0, 0 with 40 time steps, and 2, 1, 1, 0 with k = 1 *)
Example C116_example : let v := [3; 1; 0; 0]%Z in (1 <= length v <= 40)%nat /\ (forall x, In x v -> (0 <= x)%Z) /\ no_density 40 (length v) 0 /\ In 0%Z v /\ In 3%Z v.
Proof. cbn. split; [lia|]. split; [intros x Hx; repeat destruct Hx as [<-|Hx]; try lia; destruct Hx|]. split; [left; lia|]. tauto. Qed.
Example C116_given_k_example : exists out, eigen_values_denoise_int 0 [2; 1; 1; 0]%Z 40 (Some 1%Z) = ([2; 1; 1; 0]%Z, Ok (out, mkInfo false 1 None None)) /\ out = [2; 0; 0; 0]%Z.
Proof.
  destruct (C116_given_k 0 40 [2; 1; 1; 0]%Z 1 ltac:(cbn; lia) ltac:(cbn; lia)) as (m & out & W & E & Eo & _); [intros x Hx; repeat destruct Hx as [<-|Hx]; try lia; destruct Hx|].
  exists out. split; [exact E|]. rewrite Eo. assert (m = 0%Z) as ->; [|reflexivity]. apply (whole_unique _ _ _ W). unfold whole_part, rsum. cbn. lra.
Qed.
