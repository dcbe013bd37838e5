(** Property C118: how the rank decision inside the least squares solver makes the OU fit depend on the level of the series. *)
From Coq Require Import Reals Lra String List Arith Lia Bool.
From Verif Require Import Base Num Sums Feat_Proofs Sim_Model Sim_Spec Sim_Proofs Sim_Fit_Proofs Sim_OU_Props OUFit_Spec OUFit_Props Cut_Model Cut_Spec Cut_Proofs.
Import ListNotations.
Open Scope R_scope.

Lemma rcond_cut : forall x y, length x = length y -> (2 <= length x)%nat -> resolution x < 1 -> indistinct x ->
  exists u w l k, lstsq_rcond (fins x) (fins y) = Ok (Fin (u * k), Fin (w * k)) /\ 0 < u * u + w * w /\
  (let a := rsum (map (fun a => a * a) x) in let b := rsum x in let n := INR (length x) in
   a * u + b * w = l * u /\ b * u + n * w = l * w /\ 0 < l /\ (n <= a -> u = l - n /\ w = b) /\ (l - a) * (l - n) = b * b /\ a <= l /\ n <= l
   /\ (forall u' w', u' * u' + w' * w' = 1 -> a * (u' * u') + 2 * b * (u' * w') + n * (w' * w') <= l))
  /\ k = rsum (map (fun p => (u * fst p + w) * snd p) (combine x y)) / rsum (map (fun a => (u * a + w) * (u * a + w)) x).
Proof.
  intros x y L L2 Hr Hi. assert (Hx : x <> []) by (destruct x; [cbn in L2; lia|discriminate]). destruct (sums_of_moments x Hx) as (E1 & E2 & P1 & P2).
  set (n := INR (length x)) in *. set (a := rsum (map (fun a => a * a) x)) in *. set (b := rsum x) in *.
  assert (Ha : 0 <= a) by apply rsum_sq_nonneg. assert (Hcs : b * b <= a * n) by (rewrite E1, E2; nra).
  pose proof (top a n b) as T. pose proof (char a n b) as C. pose proof (l1_ge a n b) as G. pose proof (l2_range a n b Ha P2 Hcs) as R2. pose proof (l_prod a n b) as LP. pose proof (l_sum a n b) as LS. pose proof (top_max a n b P2) as TM.
  unfold lstsq_rcond. rewrite !forallb_fins, !map_real_of_fins. cbn [andb]. cbv zeta. fold n a b.
  set (l1 := (a + n + sqrt ((a - n) * (a - n) + 4 * (b * b))) / 2) in *. set (l2 := (a + n - sqrt ((a - n) * (a - n) + 4 * (b * b))) / 2) in *.
  assert (L1 : 0 < l1) by lra. assert (Pr : 0 <= resolution x) by (unfold resolution; apply Rmult_le_pos; [apply pos_INR|left; apply Rinv_0_lt_compat, pow_lt; lra]).
  assert (Er : eps * INR (Nat.max (length x) 2) = resolution x) by (rewrite Nat.max_l by lia; unfold eps, resolution; ring). rewrite Er.
  assert (Q : sqrt l2 <= resolution x * sqrt l1).
  { apply cut_iff; auto; [apply sqrt_lt_R0; auto|apply sqrt_pos|apply sqrt_le_1_alt; lra|]. rewrite !sqrt_sqrt by lra. rewrite LS. rewrite <- sqrt_mult by lra. rewrite LP.
    replace (a * n - b * b) with ((n * spread x) * (n * spread x)) by (rewrite E1, E2; ring). rewrite sqrt_square by nra. replace (a + n) with (n * (level x ^ 2 + spread x ^ 2 + 1)) by (rewrite E2; ring). unfold indistinct in Hi. nra. }
  rewrite (proj2 (rleb_true _ _)) by exact Q. set (uw := if rleb n a then (l1 - n, b) else (b, l1 - a)) in *.
  destruct T as (T1 & T2 & T3).
  assert (N : 0 < fst uw * fst uw + snd uw * snd uw).
  { apply T3. destruct (Rlt_dec l2 l1) as [|K]; auto. exfalso. assert (l2 = l1) by lra. rewrite H in Q. pose proof (sqrt_lt_R0 _ L1). nra. }
  exists (fst uw), (snd uw), l1. eexists. split; [reflexivity|]. split; [exact N|]. split.
  - split; [exact T1|]. split; [exact T2|]. split; [exact L1|]. split; [|split; [exact C|split; [apply G|split; [apply G|exact TM]]]]. intros K. unfold uw. rewrite (proj2 (rleb_true _ _)) by exact K. cbn. auto.
  - rewrite g_y by auto. rewrite g_sq. fold a b n. set (u := fst uw) in *. set (w := snd uw) in *.
    assert (D : u * u * a + 2 * (u * w) * b + w * w * n = l1 * (u * u + w * w)) by (transitivity (u * (l1 * u) + w * (l1 * w)); [rewrite <- T1, <- T2; ring|ring]). rewrite D. reflexivity.
Qed.

Lemma rcond_uncut : forall x y, (2 <= length x)%nat -> resolution x < 1 -> ~ indistinct x -> lstsq_rcond (fins x) (fins y) = lstsq_line (fins x) (fins y).
Proof.
  intros x y L2 Hr Hi. assert (Hx : x <> []) by (destruct x; [cbn in L2; lia|discriminate]). destruct (sums_of_moments x Hx) as (E1 & E2 & P1 & P2).
  unfold lstsq_rcond. rewrite !forallb_fins, !map_real_of_fins. cbn [andb]. cbv zeta.
  set (n := INR (length x)) in *. set (a := rsum (map (fun a => a * a) x)) in *. set (b := rsum x) in *.
  assert (Ha : 0 <= a) by apply rsum_sq_nonneg. assert (Hcs : b * b <= a * n) by (rewrite E1, E2; nra).
  pose proof (l1_ge a n b) as G. pose proof (l2_range a n b Ha P2 Hcs) as R2. pose proof (l_prod a n b) as LP. pose proof (l_sum a n b) as LS.
  set (l1 := (a + n + sqrt ((a - n) * (a - n) + 4 * (b * b))) / 2) in *. set (l2 := (a + n - sqrt ((a - n) * (a - n) + 4 * (b * b))) / 2) in *.
  assert (L1 : 0 < l1) by lra. assert (Pr : 0 <= resolution x) by (unfold resolution; apply Rmult_le_pos; [apply pos_INR|left; apply Rinv_0_lt_compat, pow_lt; lra]).
  assert (Er : eps * INR (Nat.max (length x) 2) = resolution x) by (rewrite Nat.max_l by lia; unfold eps, resolution; ring). rewrite Er.
  destruct (rleb (sqrt l2) (resolution x * sqrt l1)) eqn:Q; [|reflexivity]. exfalso. apply rleb_true in Q. apply Hi.
  apply (cut_iff (sqrt l1) (sqrt l2) (resolution x)) in Q; auto; [|apply sqrt_lt_R0; auto|apply sqrt_pos|apply sqrt_le_1_alt; lra]. rewrite !sqrt_sqrt in Q by lra. rewrite LS in Q. rewrite <- sqrt_mult in Q by lra. rewrite LP in Q.
  replace (a * n - b * b) with ((n * spread x) * (n * spread x)) in Q by (rewrite E1, E2; ring). rewrite sqrt_square in Q by nra. replace (a + n) with (n * (level x ^ 2 + spread x ^ 2 + 1)) in Q by (rewrite E2; ring).
  unfold indistinct. apply Rmult_le_reg_l with n; auto. lra.
Qed.

Lemma const_sums : forall c x, (forall a, In a x -> a = c) -> rsum x = INR (length x) * c /\ rsum (map (fun a => a * a) x) = INR (length x) * (c * c)
  /\ forall y, length x = length y -> rsum (map (fun p => fst p * snd p) (combine x y)) = c * rsum y.
Proof.
  intros c x. induction x as [|a x IH]; intros H.
  - split; [cbn; ring|]. split; [cbn; ring|]. intros [|d y] L; [cbn; ring|discriminate].
  - destruct IH as (A & B & D); [intros; apply H; now right|]. rewrite (H a) by now left. change (length (c :: x)) with (S (length x)). rewrite S_INR.
    split; [change (rsum (c :: x)) with (c + rsum x); rewrite A; ring|]. split; [change (rsum (map (fun a0 => a0 * a0) (c :: x))) with (c * c + rsum (map (fun a0 => a0 * a0) x)); rewrite B; ring|].
    intros [|d y] L; [discriminate|]. injection L as L. change (rsum (map (fun p => fst p * snd p) (combine (c :: x) (d :: y)))) with (c * d + rsum (map (fun p => fst p * snd p) (combine x y))). rewrite (D y L). change (rsum (d :: y)) with (d + rsum y). ring.
Qed.
Lemma rcond_constant : forall x y, length x = length y -> constant x -> lstsq_rcond (fins x) (fins y) = lstsq_line (fins x) (fins y).
Proof.
  intros x y L K. destruct x as [|c x0].
  - destruct y; [|discriminate]. unfold lstsq_rcond, lstsq_line. cbn [fins map forallb andb length combine fst snd rsum fold_right INR]. cbv zeta.
    replace ((0 - 0) * (0 - 0) + 4 * (0 * 0)) with 0 by ring. rewrite sqrt_0. replace ((0 + 0 - 0) / 2) with 0 by field. rewrite sqrt_0.
    replace ((0 + 0 + 0) / 2) with 0 by field. rewrite sqrt_0, Rmult_0_r. rewrite (proj2 (rleb_true 0 0)) by lra. cbn [fst snd]. rewrite (proj2 (reqb_true 0 0)) by reflexivity.
    unfold rmean. cbn [length INR rsum fold_right]. unfold Rdiv. rewrite !Rmult_0_l. do 3 f_equal; ring.
  - set (x := c :: x0) in *. assert (H : forall a, In a x -> a = c) by (intros a Ha; apply K; auto; now left). destruct (const_sums c x H) as (S1 & S2 & S3). specialize (S3 y L).
    assert (P : 0 < INR (length x)) by (apply lt_0_INR; unfold x; cbn; lia).
    unfold lstsq_rcond, lstsq_line. rewrite !forallb_fins, !map_real_of_fins. cbn [andb]. cbv zeta. rewrite S1, S2, S3.
    set (n := INR (length x)) in *. assert (Mx : rmean x = c) by (unfold rmean; rewrite S1; fold n; field; lra). rewrite Mx.
    assert (Z : rsum (map (fun a => (a - c) * (a - c)) x) = 0) by (rewrite (rsum_ext _ _ (fun _ => 0)); [rewrite rsum_const; ring|intros a Ha; rewrite (H a Ha); ring]). rewrite (proj2 (reqb_true _ _)) by exact Z.
    assert (Ed : sqrt ((n * (c * c) - n) * (n * (c * c) - n) + 4 * (n * c * (n * c))) = n * (c * c + 1)).
    { replace ((n * (c * c) - n) * (n * (c * c) - n) + 4 * (n * c * (n * c))) with ((n * (c * c + 1)) * (n * (c * c + 1))) by ring. apply sqrt_square. nra. }
    rewrite Ed. replace ((n * (c * c) + n - n * (c * c + 1)) / 2) with 0 by field. replace ((n * (c * c) + n + n * (c * c + 1)) / 2) with (n * (c * c + 1)) by field. rewrite sqrt_0.
    assert (Q : 0 <= eps * INR (Nat.max (length x) 2) * sqrt (n * (c * c + 1))) by (repeat apply Rmult_le_pos; [unfold eps; left; apply Rinv_0_lt_compat, pow_lt; lra|apply pos_INR|apply sqrt_pos]).
    rewrite (proj2 (rleb_true _ _)) by exact Q. assert (My : rmean y = rsum y / n) by (unfold rmean, n; rewrite L; reflexivity). rewrite My.
    assert (C1 : c * c + 1 <> 0) by nra. destruct (rleb n (n * (c * c))) eqn:E; cbn [fst snd].
    + apply rleb_true in E. assert (C0 : c <> 0) by (intros ->; nra). replace (n * (c * c + 1) - n) with (n * (c * c)) by ring. do 3 f_equal; field; repeat split; try lra; auto; try nra.
    + replace (n * (c * c + 1) - n * (c * c)) with n by ring. do 3 f_equal; field; repeat split; try lra; auto; try nra.
Qed.

Lemma mapM_ext_in : forall A B (f g : A -> res B) l, (forall x, In x l -> f x = g x) -> mapM f l = mapM g l.
Proof.
  intros A B f g l. induction l as [|x l IH]; intros H; [reflexivity|]. cbn [mapM]. rewrite (H x) by now left. rewrite IH by (intros; apply H; now right). reflexivity.
Qed.
Lemma all_fin : forall l, forallb is_fin l = true -> exists r, l = fins r.
Proof.
  induction l as [|x l IH]; intros H; [exists []; reflexivity|]. cbn [forallb] in H. apply andb_true_iff in H as [H1 H2]. destruct (IH H2) as (r & ->). destruct x; try discriminate. exists (r0 :: r). reflexivity.
Qed.
Lemma col_by : forall (line : list num -> list num -> res (num * num)) a i, line (removelast (col a i)) (tl (col a i)) = lstsq_line (removelast (col a i)) (tl (col a i)) -> ou_fit_col_by line a i = ou_fit_col a i.
Proof. intros line a i H. unfold ou_fit_col_by, ou_fit_col. rewrite H. reflexivity. Qed.

(* ------------------------------------------------------------------ *)
(** ** C118 *)

(** If in every column the values, the last one left out, are all equal or can be told from a constant, the rank decision changes nothing:
    the fit of the code is the least squares fit C27, C103, C104, C105 and C111 speak about. *)
Theorem C118_agrees : forall infer chol (o : obj oupar) a dt,
  (forall i x, (i < ncol a)%nat -> col a i = fins x -> constant (removelast x) \/ (resolution (removelast x) < 1 /\ ~ indistinct (removelast x))) ->
  fit infer (ou_fit_by lstsq_rcond chol) o (DNp2 a) dt = fit infer (ou_fit_np chol) o (DNp2 a) dt.
Proof.
  intros infer chol o a dt H. unfold fit. destruct (preprocess_fit infer (o_fit o) (DNp2 a) dt) as [st [[v d]|e]] eqn:E; [|reflexivity].
  assert (v = a) as ->.
  { unfold preprocess_fit in E. cbn in E. destruct (Nat.eqb (nrow a) 0); [discriminate|]. destruct dt; injection E as _ <- _; reflexivity. }
  assert (K : mapM (ou_fit_col_by lstsq_rcond a) (seq 0 (ncol a)) = mapM (ou_fit_col a) (seq 0 (ncol a))).
  { apply mapM_ext_in. intros i Hi. apply in_seq in Hi. apply col_by.
    destruct (forallb is_fin (removelast (col a i)) && forallb is_fin (tl (col a i))) eqn:F; [|unfold lstsq_rcond, lstsq_line; rewrite F; reflexivity].
    apply andb_true_iff in F as [F1 F2]. assert (EX : (exists l, col a i = fins l) \/ (length (col a i) <= 1)%nat).
    { destruct (col a i) as [|c l]; [right; cbn; lia|]. destruct l as [|c' l]; [right; cbn; lia|]. left. apply all_fin. cbn [tl] in F2. change (removelast (c :: c' :: l)) with (c :: removelast (c' :: l)) in F1.
      cbn [forallb] in F1. apply andb_true_iff in F1 as [F1 _]. cbn [forallb] in *. rewrite F1, F2. reflexivity. }
    destruct EX as [(l & El)|EX].
    - rewrite El. assert (Erl : removelast (fins l) = fins (removelast l)) by apply removelast_map. assert (Etl : tl (fins l) = fins (tl l)) by apply tl_map. rewrite Erl, Etl.
      assert (Ln : length (removelast l) = length (tl l)) by (clear; induction l as [|x [|y l] IH]; try reflexivity; change (removelast (x :: y :: l)) with (x :: removelast (y :: l)); cbn [length tl] in *; rewrite IH; reflexivity).
      destruct (H i l ltac:(lia) El) as [C|[Hr Hi']]; [apply rcond_constant; auto|].
      destruct (le_lt_dec 2 (length (removelast l))) as [G|G]; [apply rcond_uncut; auto|]. apply rcond_constant; auto.
      destruct (removelast l) as [|p [|q m]]; [intros u w []|intros u w [<-|[]] [<-|[]]; reflexivity|cbn in G; lia].
    - destruct (col a i) as [|c [|c' l]]; [..|cbn in EX; lia]; cbn [removelast tl]; apply (rcond_constant [] []); auto; intros u w []. }
  unfold ou_fit_by, ou_fit_np. rewrite K. reflexivity.
Qed.
Print Assumptions C118_agrees.

(** Otherwise only the direction (u, w) in which [x, 1] is largest is used: the fitted line is a multiple k of it, the best one. *)
Theorem C118_line : forall x y, length x = length y -> (2 <= length x)%nat -> resolution x < 1 -> indistinct x ->
  exists u w k, lstsq_rcond (fins x) (fins y) = Ok (Fin (u * k), Fin (w * k))
  /\ 0 < u * u + w * w
  /\ (forall u' w', rsum (map (fun a => (u' * a + w') ^ 2) x) * (u ^ 2 + w ^ 2) <= rsum (map (fun a => (u * a + w) ^ 2) x) * (u' ^ 2 + w' ^ 2))
  /\ (forall k', rsum (map (fun p => (snd p - k * (u * fst p + w)) ^ 2) (combine x y)) <= rsum (map (fun p => (snd p - k' * (u * fst p + w)) ^ 2) (combine x y))).
Proof.
  intros x y L L2 Hr Hi. destruct (rcond_cut x y L L2 Hr Hi) as (u & w & l & k & E & N & (T1 & T2 & Pl & _ & _ & _ & _ & TM) & Ek). exists u, w, k. split; [exact E|]. split; [exact N|].
  set (a := rsum (map (fun a => a * a) x)) in *. set (b := rsum x) in *. set (n := INR (length x)) in *.
  assert (EQ : forall u w, rsum (map (fun a => (u * a + w) ^ 2) x) = u * u * a + 2 * (u * w) * b + w * w * n) by (intros u1 w1; unfold a, b, n; rewrite <- g_sq; apply rsum_ext; intros; ring).
  assert (EG : u * u * a + 2 * (u * w) * b + w * w * n = l * (u * u + w * w)) by (transitivity (u * (l * u) + w * (l * w)); [rewrite <- T1, <- T2; ring|ring]). split.
  - intros u' w'. rewrite !EQ, EG. set (m := u' * u' + w' * w'). assert (Pm : 0 <= m) by (unfold m; nra). destruct (Req_dec m 0) as [Z|Z].
    + assert (u' = 0 /\ w' = 0) as [-> ->] by (unfold m in Z; nra). nra.
    + assert (Pm' : 0 < m) by lra. assert (Ps : 0 < sqrt m) by (apply sqrt_lt_R0; auto). specialize (TM (u' / sqrt m) (w' / sqrt m)).
      assert (Sm : sqrt m * sqrt m = m) by (apply sqrt_sqrt; lra).
      assert (D : forall p q, p / sqrt m * (q / sqrt m) = p * q / m) by (intros p q; replace (p * q / m) with (p * q / (sqrt m * sqrt m)) by (rewrite Sm; reflexivity); field; lra). rewrite !D in TM.
      assert (U : u' * u' / m + w' * w' / m = 1) by (unfold m; field; unfold m in Z; exact Z). specialize (TM U).
      assert (TM' : u' * u' * a + 2 * (u' * w') * b + w' * w' * n <= l * m).
      { apply Rmult_le_reg_r with (/ m); [apply Rinv_0_lt_compat; auto|]. replace (l * m * / m) with l by (field; auto). replace ((u' * u' * a + 2 * (u' * w') * b + w' * w' * n) * / m) with (a * (u' * u' / m) + 2 * b * (u' * w' / m) + n * (w' * w' / m)) by (field; auto). exact TM. }
      replace (u ^ 2 + w ^ 2) with (u * u + w * w) by ring. replace (u' ^ 2 + w' ^ 2) with m by (unfold m; ring). nra.
  - intros k'. rewrite g_sq in Ek. fold a b n in Ek. rewrite EG in Ek. set (g := l * (u * u + w * w)) in *. assert (Pg : 0 < g) by (apply Rmult_lt_0_compat; auto).
    assert (X : forall c, rsum (map (fun p => (snd p - c * (u * fst p + w)) ^ 2) (combine x y))
       = rsum (map (fun p => snd p * snd p) (combine x y)) - 2 * c * rsum (map (fun p => (u * fst p + w) * snd p) (combine x y)) + c * c * rsum (map (fun p => (u * fst p + w) * (u * fst p + w)) (combine x y))).
    { intros c. clear. induction (combine x y) as [|p m IH]; [cbn; ring|]. cbn [map rsum fold_right]. unfold rsum in IH. rewrite IH. unfold rsum. ring. }
    assert (Y : rsum (map (fun p => (u * fst p + w) * (u * fst p + w)) (combine x y)) = g).
    { rewrite <- EG. unfold a, b, n. rewrite <- g_sq. clear - L. revert y L. induction x as [|c x IH]; intros [|d y] L; try discriminate; [reflexivity|]. injection L as L. cbn [combine map rsum fold_right fst]. unfold rsum in IH. rewrite (IH y L). reflexivity. }
    rewrite !X, Y. set (h := rsum (map (fun p => (u * fst p + w) * snd p) (combine x y))) in *. assert (Eh : h = k * g) by (rewrite Ek; field; lra). rewrite Eh. pose proof (pow2_ge_0 (k - k')). nra.
Qed.
Print Assumptions C118_line.

Lemma sum_bounds : forall lo hi u w x y, length x = length y -> (forall a, In a x -> lo <= a <= hi) -> (forall a, In a y -> lo <= a <= hi) -> 0 < lo -> 0 < u -> 0 <= w -> w <= u ->
  let g := rsum (map (fun a => u * a + w) x) in
  0 <= g /\ lo * g <= rsum (map (fun p => (u * fst p + w) * snd p) (combine x y)) <= hi * g
  /\ u * lo * g <= rsum (map (fun a => (u * a + w) * (u * a + w)) x) <= u * (hi + 1) * g.
Proof.
  intros lo hi u w x. induction x as [|c x IH]; intros [|d y] L Hx Hy Hlo Hu Hw Hwu; try discriminate; [cbn; lra|]. injection L as L.
  destruct (IH y L) as (A & B & C); auto; [intros; apply Hx; now right|intros; apply Hy; now right|]. cbv zeta in *. destruct (Hx c (or_introl eq_refl)) as [c1 c2]. destruct (Hy d (or_introl eq_refl)) as [d1 d2].
  change (rsum (map (fun a => u * a + w) (c :: x))) with ((u * c + w) + rsum (map (fun a => u * a + w) x)).
  change (rsum (map (fun p => (u * fst p + w) * snd p) (combine (c :: x) (d :: y)))) with ((u * c + w) * d + rsum (map (fun p => (u * fst p + w) * snd p) (combine x y))).
  change (rsum (map (fun a => (u * a + w) * (u * a + w)) (c :: x))) with ((u * c + w) * (u * c + w) + rsum (map (fun a => (u * a + w) * (u * a + w)) x)).
  set (g := rsum (map (fun a => u * a + w) x)) in *. set (v := u * c + w). assert (Pv : 0 < v) by (unfold v; nra). assert (V1 : u * lo <= v) by (unfold v; nra). assert (V2 : v <= u * (hi + 1)) by (unfold v; nra).
  repeat split; nra.
Qed.

Lemma cut_slope : forall lo hi x y, length x = length y -> (2 <= length x)%nat -> resolution x < 1 -> indistinct x -> 1 <= lo ->
  (forall a, In a x -> lo <= a <= hi) -> (forall a, In a y -> lo <= a <= hi) ->
  exists s i, lstsq_rcond (fins x) (fins y) = Ok (Fin s, Fin i) /\ lo / (hi + 1) <= s <= hi / lo.
Proof.
  intros lo hi x y L L2 Hr Hi Hlo Hx Hy. destruct (rcond_cut x y L L2 Hr Hi) as (u & w & l & k & E & N & (T1 & T2 & Pl & Huw & C & G1 & G2 & _) & Ek).
  set (a := rsum (map (fun a => a * a) x)) in *. set (b := rsum x) in *. set (n := INR (length x)) in *.
  assert (AB : n <= b /\ b <= a).
  { unfold a, b, n. clear - Hx Hlo. induction x as [|c x IH]; [cbn; lra|]. destruct IH as [I1 I2]; [intros; apply Hx; now right|]. destruct (Hx c (or_introl eq_refl)) as [c1 c2].
    change (rsum (c :: x)) with (c + rsum x). change (rsum (map (fun a => a * a) (c :: x))) with (c * c + rsum (map (fun a => a * a) x)). change (length (c :: x)) with (S (length x)). rewrite S_INR. split; nra. }
  assert (Pn : 0 < n) by (apply lt_0_INR; lia). destruct Huw as [Eu Ew]; [lra|]. assert (Pu : 0 < u) by (rewrite Eu; nra). assert (Wu : w <= u) by (rewrite Eu, Ew; nra).
  destruct (sum_bounds lo hi u w x y L Hx Hy ltac:(lra) Pu ltac:(lra) Wu) as (S0 & [S1 S2] & [S3 S4]). cbv zeta in *. set (g := rsum (map (fun a => u * a + w) x)) in *.
  set (gg := rsum (map (fun a => (u * a + w) * (u * a + w)) x)) in *. set (gy := rsum (map (fun p => (u * fst p + w) * snd p) (combine x y))) in *.
  assert (Hh : lo <= hi) by (destruct x as [|c x0]; [cbn in L2; lia|]; destruct (Hx c (or_introl eq_refl)); lra).
  assert (Pgg : 0 < gg).
  { unfold gg. rewrite g_sq. fold a b n. replace (u * u * a + 2 * (u * w) * b + w * w * n) with (l * (u * u + w * w)) by (transitivity (u * (l * u) + w * (l * w)); [ring|rewrite <- T1, <- T2; ring]). apply Rmult_lt_0_compat; auto. }
  assert (Pg : 0 < g) by (destruct S0 as [S0|S0]; auto; rewrite <- S0 in S4; lra).
  exists (u * k), (w * k). split; [exact E|]. rewrite Ek. split.
  - apply Rmult_le_reg_r with (hi + 1); [lra|]. replace (lo / (hi + 1) * (hi + 1)) with lo by (field; lra). apply Rmult_le_reg_r with gg; auto.
    replace (u * (gy / gg) * (hi + 1) * gg) with (u * (hi + 1) * gy) by (field; lra). apply Rle_trans with (lo * (u * (hi + 1) * g)); [apply Rmult_le_compat_l; lra|].
    replace (lo * (u * (hi + 1) * g)) with (u * (hi + 1) * (lo * g)) by ring. apply Rmult_le_compat_l; [nra|lra].
  - apply Rmult_le_reg_r with lo; [lra|]. replace (hi / lo * lo) with hi by (field; lra). apply Rmult_le_reg_r with gg; auto.
    replace (u * (gy / gg) * lo * gg) with (u * lo * gy) by (field; lra). apply Rle_trans with (u * lo * (hi * g)); [apply Rmult_le_compat_l; [nra|lra]|].
    replace (u * lo * (hi * g)) with (hi * (u * lo * g)) by ring. apply Rmult_le_compat_l; lra.
Qed.

(** A series with values in [lo, hi] that cannot be told from a constant gets a mean reversion rate near zero, whatever its dynamics: at most
    ln ((hi + 1) / lo) / dt and at least - ln (hi / lo) / dt. *)
Theorem C118_flat : forall infer chol (o : obj oupar) x lo hi dt, (3 <= length x)%nat -> 0 < dt -> 1 <= lo -> hi + 1 < 100000000 * lo ->
  (forall a, In a x -> lo <= a <= hi) -> resolution (removelast x) < 1 -> indistinct (removelast x) ->
  exists f q, fit infer (ou_fit_by lstsq_rcond chol) o (DNp1 (fins x)) (Some (Fin dt)) = (f, Ok tt)
  /\ ou_mrr (o_par f) = Scal (Fin q) /\ - ln (hi / lo) / dt <= q <= ln ((hi + 1) / lo) / dt.
Proof.
  intros infer chol o x lo hi dt Hl Hdt Hlo Hhi Hx Hr Hi.
  assert (Ln : length (removelast x) = length (tl x) /\ (2 <= length (removelast x))%nat).
  { assert (Q : forall l : list R, length (removelast l) = (length l - 1)%nat) by (clear; induction l as [|a [|b l] IH]; try reflexivity; change (removelast (a :: b :: l)) with (a :: removelast (b :: l)); cbn [length] in *; lia).
    rewrite Q. split; [destruct x; cbn; lia|lia]. }
  destruct Ln as [Ln Ln2].
  assert (I1 : forall a, In a (removelast x) -> In a x) by (clear; induction x as [|c [|d x] IH]; [intros a []|intros a []|]; change (removelast (c :: d :: x)) with (c :: removelast (d :: x)); intros a [->|H]; [now left|right; auto]).
  assert (I2 : forall a, In a (tl x) -> In a x) by (destruct x; [intros a []|intros a H; now right]).
  destruct (cut_slope lo hi (removelast x) (tl x) Ln Ln2 Hr Hi Hlo ltac:(auto) ltac:(auto)) as (s & i & E & [S1 S2]).
  assert (Hh : lo <= hi) by (destruct x as [|c x0]; [cbn in Hl; lia|]; destruct (Hx c (or_introl eq_refl)); lra).
  assert (St : slope_tol < s).
  { apply Rlt_le_trans with (lo / (hi + 1)); auto. unfold slope_tol. apply Rmult_lt_reg_r with (hi + 1); [lra|]. replace (lo / (hi + 1) * (hi + 1)) with lo by (field; lra). lra. }
  assert (Ps : 0 < s) by (unfold slope_tol in St; lra).
  assert (EF : exists r, ou_fit_col_by lstsq_rcond (col_vec (fins x)) 0 = Ok (Fin s, Fin i, r)).
  { unfold ou_fit_col_by. rewrite col_col_vec. assert (Erl : removelast (fins x) = fins (removelast x)) by apply removelast_map. assert (Etl : tl (fins x) = fins (tl x)) by apply tl_map. rewrite Erl, Etl, E. cbn [bind fst snd].
    rewrite nleb_fin. rewrite (proj2 (rleb_false _ _)) by exact St. cbn [fst snd]. eexists. reflexivity. }
  destruct EF as (r & EF). exists (fst (fit infer (ou_fit_by lstsq_rcond chol) o (DNp1 (fins x)) (Some (Fin dt)))), (- ln s / dt).
  unfold fit, preprocess_fit. cbn [to_numpy2 index_info get_date_time_index nrow ncol col_vec]. rewrite length_fins. destruct (Nat.eqb_spec (length x) 0); [lia|].
  unfold ou_fit_by. cbn [ncol col_vec seq mapM]. rewrite <- (length_fins x). fold (col_vec (fins x)). rewrite EF. cbn [bind mapM Nat.ltb Nat.leb rev app fst snd o_par ou_mrr].
  split; [reflexivity|]. rewrite nlog_fin by auto. cbn [nneg]. rewrite ndiv_fin by lra. split; [reflexivity|].
  assert (P1 : 0 < hi / lo) by (apply Rdiv_lt_0_compat; lra). assert (P2 : 0 < lo / (hi + 1)) by (apply Rdiv_lt_0_compat; lra).
  assert (M1 : ln s <= ln (hi / lo)) by (destruct S2 as [S2| ->]; [left; apply ln_increasing; auto|lra]).
  assert (M2 : - ln s <= ln ((hi + 1) / lo)).
  { assert (K : ln ((hi + 1) / lo) = - ln (lo / (hi + 1))) by (rewrite <- ln_Rinv by auto; f_equal; field; lra). rewrite K. assert (ln (lo / (hi + 1)) <= ln s) by (destruct S1 as [S1| <-]; [left; apply ln_increasing; auto|lra]). lra. }
  pose proof (Rinv_0_lt_compat dt Hdt). unfold Rdiv. split; apply Rmult_le_compat_r; lra.
Qed.
Print Assumptions C118_flat.

(** The same three observations at level 0 and at level 2^26: the rate is ln 2 per step at level 0 and less than 1/1000000 at level 2^26. *)
Definition ramp (c : R) : list R := [c; c + 1; c + 3 / 2].
Lemma ramp_moments : forall c, level (removelast (ramp c)) = c + 1 / 2 /\ spread (removelast (ramp c)) = 1 / 2 /\ resolution (removelast (ramp c)) = 2 * / 2 ^ 52.
Proof.
  intros c. assert (Lv : level (removelast (ramp c)) = c + 1 / 2) by (unfold level, rmean, ramp; cbn [removelast length rsum fold_right INR]; field).
  split; [exact Lv|]. split; [|unfold resolution, ramp; cbn [removelast length INR]; ring]. unfold spread, rvar. unfold level in Lv. rewrite Lv. unfold ramp. cbn [removelast map length rsum fold_right Nat.sub INR].
  replace (((c - (c + 1 / 2)) * (c - (c + 1 / 2)) + ((c + 1 - (c + 1 / 2)) * (c + 1 - (c + 1 / 2)) + 0)) / (1 + 1)) with (1 / 2 * (1 / 2)) by field. apply sqrt_square. lra.
Qed.
Theorem C118_level_refuted : forall infer chol (o : obj oupar) dt, 0 < dt -> let c := 2 ^ 26 in
  exists f g q, fit infer (ou_fit_by lstsq_rcond chol) o (DNp1 (fins (ramp 0))) (Some (Fin dt)) = (f, Ok tt)
  /\ fit infer (ou_fit_by lstsq_rcond chol) o (DNp1 (fins (map (fun a => a + c) (ramp 0)))) (Some (Fin dt)) = (g, Ok tt)
  /\ ou_mrr (o_par f) = Scal (Fin (ln 2 / dt)) /\ ou_mrr (o_par g) = Scal (Fin q) /\ q <= / 1000000 / dt.
Proof.
  intros infer chol o dt Hdt c. assert (E52 : 2 ^ 52 = 4503599627370496) by (cbn [pow]; lra). assert (E26 : 2 ^ 26 = 67108864) by (cbn [pow]; lra).
  assert (EC : map (fun a => a + c) (ramp 0) = ramp c) by (unfold ramp; cbn [map]; f_equal; [ring|f_equal; [ring|f_equal; ring]]). rewrite EC.
  destruct (ramp_moments c) as (M1 & M2 & M3). destruct (ramp_moments 0) as (N1 & N2 & N3).
  destruct (C118_flat infer chol o (ramp c) c (c + 3 / 2) dt) as (g & q & G1 & G2 & _ & G3); auto.
  - unfold c. rewrite E26. lra.
  - unfold c. rewrite E26. lra.
  - intros a [<-|[<-|[<-|[]]]]; lra.
  - rewrite M3, E52. lra.
  - unfold indistinct. rewrite M1, M2, M3, E52. unfold c. rewrite E26. lra.
  - assert (K : lstsq_rcond (fins (removelast (ramp 0))) (fins (tl (ramp 0))) = Ok (Fin (1 / 2), Fin 1)).
    { rewrite rcond_uncut; [| cbn; lia|rewrite N3, E52; lra|unfold indistinct; rewrite N1, N2, N3, E52; lra].
      unfold lstsq_line, ramp. cbn [removelast tl fins map forallb is_fin andb real_of]. unfold rmean. cbn [combine map length rsum fold_right INR fst snd]. rewrite (proj2 (reqb_false _ _)) by lra. do 3 f_equal; field. }
    exists (fst (fit infer (ou_fit_by lstsq_rcond chol) o (DNp1 (fins (ramp 0))) (Some (Fin dt)))), g, q. split; [|split; [exact G1|split; [|split; [exact G2|]]]].
    + unfold fit, preprocess_fit. cbn [to_numpy2 index_info get_date_time_index nrow ncol col_vec]. rewrite length_fins. destruct (Nat.eqb_spec (length (ramp 0)) 0); [discriminate|].
      unfold ou_fit_by. cbn [ncol col_vec seq mapM]. rewrite <- (length_fins (ramp 0)). fold (col_vec (fins (ramp 0))). unfold ou_fit_col_by. rewrite col_col_vec. change (removelast (fins (ramp 0))) with (fins (removelast (ramp 0))). change (tl (fins (ramp 0))) with (fins (tl (ramp 0))). rewrite K. cbn [bind fst snd mapM Nat.ltb Nat.leb].
      destruct (nleb _ _); reflexivity.
    + unfold fit, preprocess_fit. cbn [to_numpy2 index_info get_date_time_index nrow ncol col_vec]. rewrite length_fins. destruct (Nat.eqb_spec (length (ramp 0)) 0); [discriminate|].
      unfold ou_fit_by. cbn [ncol col_vec seq mapM]. rewrite <- (length_fins (ramp 0)). fold (col_vec (fins (ramp 0))). unfold ou_fit_col_by. rewrite col_col_vec. change (removelast (fins (ramp 0))) with (fins (removelast (ramp 0))). change (tl (fins (ramp 0))) with (fins (tl (ramp 0))). rewrite K. cbn [bind fst snd].
      rewrite nleb_fin. rewrite (proj2 (rleb_false _ _)) by (unfold slope_tol; lra). cbn [fst snd mapM bind Nat.ltb Nat.leb rev app o_par ou_mrr]. rewrite nlog_fin by lra. cbn [nneg]. rewrite ndiv_fin by lra. do 3 f_equal.
      replace (1 / 2) with (/ 2) by field. rewrite ln_Rinv by lra. ring.
    + apply Rle_trans with (1 := G3). unfold Rdiv. apply Rmult_le_compat_r; [left; apply Rinv_0_lt_compat; auto|].
      assert (P : 0 < (c + 3 / 2 + 1) / c - 1) by (unfold c; rewrite E26; lra).
      apply Rle_trans with ((c + 3 / 2 + 1) / c - 1); [|unfold c; rewrite E26; lra].
      rewrite <- (ln_exp ((c + 3 / 2 + 1) / c - 1)). left. apply ln_increasing; [unfold c; rewrite E26; lra|]. pose proof (exp_ineq1 ((c + 3 / 2 + 1) / c - 1) ltac:(lra)). unfold Rdiv in *. lra.
Qed.
Print Assumptions C118_level_refuted.

(** Both cases occur: the ramp at level 0 can be told from a constant, the ramp at level 2^26 cannot. *)
Example C118_example : ~ indistinct (removelast (ramp 0)) /\ indistinct (removelast (ramp (2 ^ 26))) /\ ~ constant (removelast (ramp (2 ^ 26))).
Proof.
  assert (E52 : 2 ^ 52 = 4503599627370496) by (cbn [pow]; lra). assert (E26 : 2 ^ 26 = 67108864) by (cbn [pow]; lra).
  destruct (ramp_moments (2 ^ 26)) as (M1 & M2 & M3). destruct (ramp_moments 0) as (N1 & N2 & N3). split; [|split].
  - unfold indistinct. rewrite N1, N2, N3, E52. lra.
  - unfold indistinct. rewrite M1, M2, M3, E52, E26. lra.
  - intros K. specialize (K (2 ^ 26) (2 ^ 26 + 1) ltac:(now left) ltac:(right; now left)). lra.
Qed.
