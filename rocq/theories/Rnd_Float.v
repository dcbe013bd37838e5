(** Facts on binary64. *)
From Coq Require Import Reals Lra Lia ZArith.
From Flocq Require Import Core.
From Flocq.Prop Require Import Mult_error Relative.
From Verif Require Import Rnd_Spec.
Open Scope R_scope.

Local Notation fexp := (FLT_exp (-1074) 53).
#[local] Instance prec53 : Prec_gt_0 53. Proof. reflexivity. Qed.

Lemma held_gen : forall x, held binary64 x <-> generic_format radix2 fexp x.
Proof.
  intros x. split; intros Hx.
  - rewrite <- Hx. apply generic_format_round; auto with typeclass_instances.
  - apply round_generic; auto with typeclass_instances.
Qed.
Lemma held_ze : forall m e, (Z.abs m < 2 ^ 53)%Z -> (-1074 <= e)%Z -> held binary64 (IZR m * bpow radix2 e).
Proof.
  intros m e Hm He. apply held_gen. apply generic_format_FLT. exists (Float radix2 m e); [reflexivity|exact Hm|exact He].
Qed.
Lemma held_z : forall m, (Z.abs m < 2 ^ 53)%Z -> held binary64 (IZR m).
Proof. intros m Hm. replace (IZR m) with (IZR m * bpow radix2 0) by (cbn; lra). apply held_ze; [auto|lia]. Qed.

Lemma binary64_rounding : rounding binary64.
Proof.
  split.
  - intros x y Hxy. apply round_le; auto with typeclass_instances.
  - intros x. apply held_gen. apply generic_format_round; auto with typeclass_instances.
  - intros x. apply round_NE_opp.
  - intros x Hx. apply held_gen in Hx. apply held_gen. rewrite Rmult_comm.
    apply FLT_format_generic in Hx; auto with typeclass_instances. destruct Hx as [[m e] E M1 E1]. cbn [Fnum Fexp] in *.
    apply generic_format_FLT. exists (Float radix2 m (e + 1)); [|exact M1|cbn [Fexp]; lia].
    rewrite E. unfold F2R. cbn [Fnum Fexp]. rewrite bpow_plus. change (bpow radix2 1) with 2. ring.
  - apply held_z. reflexivity.
  - apply held_z. reflexivity.
Qed.

(** value of a rounding, from the scaled integer *)
Lemma binary64_val : forall x n e, (-1074 <= e)%Z -> bpow radix2 (e + 52) <= Rabs x < bpow radix2 (e + 53) ->
  Rabs (x * bpow radix2 (- e) - IZR n) < / 2 -> binary64 x = IZR n * bpow radix2 e.
Proof.
  intros x n e He Hx Hn. unfold binary64, round, F2R, scaled_mantissa. cbn [Fnum Fexp].
  assert (M : mag radix2 x = (e + 53)%Z :> Z). { apply mag_unique. replace (e + 53 - 1)%Z with (e + 52)%Z by lia. exact Hx. }
  assert (C : cexp radix2 fexp x = e). { unfold cexp. rewrite M. unfold FLT_exp. lia. }
  rewrite C. f_equal. f_equal. apply Znearest_imp. exact Hn.
Qed.

Lemma sqrt_of_square : forall s, held binary64 s -> bpow radix2 (-500) <= s -> binary64 (sqrt (binary64 (s * s))) = s.
Proof.
  intros s Hs Hl. assert (P0 : 0 < bpow radix2 (-500)) by apply bpow_gt_0. assert (Ps : 0 < s) by lra.
  set (e := (mag radix2 s - 53)%Z).
  assert (Mg : bpow radix2 (e + 52) <= s < bpow radix2 (e + 53)).
  { destruct (mag radix2 s) as [g Hg]. cbn in e. subst e. specialize (Hg ltac:(lra)). rewrite Rabs_pos_eq in Hg by lra.
    replace (g - 53 + 52)%Z with (g - 1)%Z by lia. replace (g - 53 + 53)%Z with g by lia. exact Hg. }
  assert (Eb : (-553 <= e)%Z).
  { assert (L : bpow radix2 (-500) < bpow radix2 (e + 53)) by lra. apply lt_bpow in L. lia. }
  assert (Hm : exists m : Z, s = IZR m * bpow radix2 e /\ (2 ^ 52 <= m < 2 ^ 53)%Z).
  { apply held_gen in Hs. unfold generic_format, F2R in Hs. cbn [Fnum Fexp] in Hs.
    assert (C : cexp radix2 fexp s = e). { unfold cexp, FLT_exp. fold e. subst e. cbn. lia. }
    rewrite C in Hs. exists (Ztrunc (scaled_mantissa radix2 fexp s)). split; [exact Hs|].
    set (m := Ztrunc (scaled_mantissa radix2 fexp s)) in *. rewrite Hs in Mg. assert (Be : 0 < bpow radix2 e) by apply bpow_gt_0.
    rewrite !bpow_plus in Mg. split.
    - apply le_IZR. replace (IZR (2 ^ 52)) with (bpow radix2 52) by (rewrite <- IZR_Zpower by lia; reflexivity). nra.
    - apply lt_IZR. replace (IZR (2 ^ 53)) with (bpow radix2 53) by (rewrite <- IZR_Zpower by lia; reflexivity). nra. }
  destruct Hm as [m [Em Hm]].
  destruct (Z.eq_dec m (2 ^ 52)) as [Q|Q].
  - assert (H1 : held binary64 (s * s)).
    { rewrite Em, Q. replace (IZR (2 ^ 52) * bpow radix2 e * (IZR (2 ^ 52) * bpow radix2 e)) with (IZR 1 * bpow radix2 (52 + e + (52 + e))).
      - apply held_ze; [reflexivity|lia].
      - rewrite !bpow_plus. replace (IZR (2 ^ 52)) with (bpow radix2 52) by (rewrite <- IZR_Zpower by lia; reflexivity). ring. }
    rewrite H1. rewrite sqrt_square by lra. exact Hs.
  - assert (Hm' : (2 ^ 52 + 1 <= m <= 2 ^ 53 - 1)%Z) by lia.
    destruct (relative_error_N_FLT_ex radix2 (-1074) 53 prec53 (fun x => negb (Z.even x)) (s * s)) as [d [Hd E]].
    { rewrite Rabs_pos_eq by nra. apply Rle_trans with (bpow radix2 (-500) * bpow radix2 (-500)); [|apply Rmult_le_compat; lra].
      rewrite <- bpow_plus. apply bpow_le. lia. }
    unfold binary64 at 2. rewrite E. replace (/ 2 * bpow radix2 (- (53) + 1)) with (bpow radix2 (-53)) in Hd.
    2: { change (-53)%Z with (-1 + (-53 + 1))%Z. rewrite bpow_plus. change (bpow radix2 (-1)) with (/ 2). reflexivity. }
    assert (D53 : bpow radix2 (-53) = / 9007199254740992) by (cbn; lra). rewrite D53 in Hd.
    assert (D0 : 0 <= 1 + d) by (apply Rabs_le_inv in Hd; lra).
    rewrite sqrt_mult by nra. rewrite sqrt_square by lra.
    set (q := sqrt (1 + d)). assert (Q0 : 0 <= q) by apply sqrt_pos. assert (Q2 : q * q = 1 + d) by (apply sqrt_sqrt; auto).
    assert (Qb : Rabs (q - 1) * (1 + q) <= / 9007199254740992).
    { rewrite <- (Rabs_pos_eq (1 + q)) by lra. rewrite <- Rabs_mult. replace ((q - 1) * (1 + q)) with (q * q - 1) by ring. rewrite Q2. replace (1 + d - 1) with d by ring. exact Hd. }
    assert (Qd : Rabs (q - 1) < / (18014398509481982)).
    { assert (A : 1 - / 9007199254740992 <= q). { apply Rabs_le_inv in Hd. assert (1 - / 9007199254740992 <= 1 + d) by lra. destruct (Rle_dec 1 q); [lra|]. nra. }
      apply Rnot_le_lt. intros B. assert (/ 18014398509481982 * (2 - / 9007199254740992) <= Rabs (q - 1) * (1 + q)) by (apply Rmult_le_compat; lra). lra. }
    assert (Bp : 0 < bpow radix2 e) by apply bpow_gt_0.
    assert (Mr : 4503599627370497 <= IZR m <= 9007199254740991) by (split; apply IZR_le; lia).
    assert (Y : Rabs (IZR m * q - IZR m) < / 2).
    { replace (IZR m * q - IZR m) with (IZR m * (q - 1)) by ring. rewrite Rabs_mult, (Rabs_pos_eq (IZR m)) by lra.
      assert (B : 0 <= Rabs (q - 1)) by apply Rabs_pos.
      assert (IZR m * Rabs (q - 1) <= 9007199254740991 * Rabs (q - 1)) by (apply Rmult_le_compat_r; lra). lra. }
    rewrite Em at 1. replace s with (IZR m * bpow radix2 e). apply binary64_val; [lia| |].
    + apply Rabs_lt_inv in Y. assert (Bq : / 2 <= IZR m * q) by lra.
      replace (IZR m * bpow radix2 e * q) with (IZR m * q * bpow radix2 e) by ring. rewrite Rabs_pos_eq by nra.
      rewrite !bpow_plus. assert (B52 : bpow radix2 52 = 4503599627370496) by (cbn; lra). assert (B53 : bpow radix2 53 = 9007199254740992) by (cbn; lra).
      rewrite B52, B53. rewrite !(Rmult_comm (bpow radix2 e)). split; [apply Rmult_le_compat_r; lra|apply Rmult_lt_compat_r; lra].
    + replace (IZR m * bpow radix2 e * q * bpow radix2 (- e)) with (IZR m * q * (bpow radix2 e * bpow radix2 (- e))) by ring.
      rewrite <- bpow_plus. replace (e + - e)%Z with 0%Z by lia. change (bpow radix2 0) with 1. rewrite Rmult_1_r. exact Y.
Qed.

(** below half the smallest positive number everything rounds to 0 *)
Lemma underflow : forall x, Rabs x < bpow radix2 (-1075) -> binary64 x = 0.
Proof.
  intros x Hx. unfold binary64. destruct (Req_dec x 0) as [->|N]; [apply round_0; auto with typeclass_instances|].
  apply round_N_small with (ex := mag radix2 x).
  - destruct (mag radix2 x) as [g Hg]. cbn. auto.
  - assert (L : (mag radix2 x <= -1075)%Z) by (apply mag_le_bpow; auto). unfold FLT_exp. lia.
Qed.

(** ** the diagonal entry of np.corrcoef for a column of variance 2 *)
Definition sq2 : R := IZR 6369051672525773 * bpow radix2 (-52).
Lemma round_sqrt2 : binary64 (sqrt 2) = sq2.
Proof.
  assert (B : 14142135623730950488 / 10 ^ 19 <= sqrt 2 <= 14142135623730950489 / 10 ^ 19).
  { split.
    - rewrite <- (sqrt_Rsqr (14142135623730950488 / 10 ^ 19)) by lra. apply sqrt_le_1_alt. unfold Rsqr. lra.
    - rewrite <- (sqrt_Rsqr (14142135623730950489 / 10 ^ 19)) by lra. apply sqrt_le_1_alt. unfold Rsqr. lra. }
  apply binary64_val; [lia| |].
  - change (-52 + 52)%Z with 0%Z. change (-52 + 53)%Z with 1%Z. change (bpow radix2 0) with 1. change (bpow radix2 1) with 2. rewrite Rabs_pos_eq by lra. lra.
  - change (- -52)%Z with 52%Z. assert (E : bpow radix2 52 = 4503599627370496) by (cbn; lra). rewrite E. apply Rabs_def1; lra.
Qed.
Lemma round_div1 : binary64 (2 / sq2) = IZR 6369051672525772 * bpow radix2 (-52).
Proof.
  unfold sq2. assert (E : bpow radix2 (-52) = / 4503599627370496) by (cbn; lra).
  assert (Q : 2 / (IZR 6369051672525773 * bpow radix2 (-52)) = 9007199254740992 / 6369051672525773) by (rewrite E; field).
  rewrite Q. apply binary64_val; [lia| |].
  - change (-52 + 52)%Z with 0%Z. change (-52 + 53)%Z with 1%Z. change (bpow radix2 0) with 1. change (bpow radix2 1) with 2. rewrite Rabs_pos_eq by lra. lra.
  - change (- -52)%Z with 52%Z. assert (E' : bpow radix2 52 = 4503599627370496) by (cbn; lra). rewrite E'. apply Rabs_def1; lra.
Qed.
Lemma round_div2 : binary64 (IZR 6369051672525772 * bpow radix2 (-52) / sq2) = IZR 9007199254740991 * bpow radix2 (-53).
Proof.
  unfold sq2. assert (E : bpow radix2 (-52) = / 4503599627370496) by (cbn; lra).
  assert (Q : IZR 6369051672525772 * bpow radix2 (-52) / (IZR 6369051672525773 * bpow radix2 (-52)) = 6369051672525772 / 6369051672525773) by (rewrite E; field).
  rewrite Q. apply binary64_val; [lia| |].
  - change (-53 + 52)%Z with (-1)%Z. change (-53 + 53)%Z with 0%Z. change (bpow radix2 0) with 1. change (bpow radix2 (-1)) with (/ 2). rewrite Rabs_pos_eq by lra. lra.
  - change (- -53)%Z with 53%Z. assert (E' : bpow radix2 53 = 9007199254740992) by (cbn; lra). rewrite E'. apply Rabs_def1; lra.
Qed.

(** ** logarithms near 100: fewer of them than prices *)
Lemma log_collision : let a := 100 in let b := 100 + bpow radix2 (-46) in let c := 100 + bpow radix2 (-45) in
  held binary64 a /\ held binary64 b /\ held binary64 c /\ a < b < c /\
  (binary64 (ln a) = binary64 (ln b) \/ binary64 (ln b) = binary64 (ln c)).
Proof.
  intros a b c. assert (E46 : bpow radix2 (-46) = / 70368744177664) by (cbn; lra). assert (E45 : bpow radix2 (-45) = / 35184372088832) by (cbn; lra).
  assert (Hlt : a < b < c) by (unfold a, b, c; rewrite E46, E45; lra).
  split; [apply held_z; reflexivity|]. split; [|split; [|split; [exact Hlt|]]].
  - unfold b. replace (100 + bpow radix2 (-46)) with (IZR (100 * 2 ^ 46 + 1) * bpow radix2 (-46)) by (rewrite E46, plus_IZR, mult_IZR; cbn; lra). apply held_ze; [reflexivity|lia].
  - unfold c. replace (100 + bpow radix2 (-45)) with (IZR (100 * 2 ^ 45 + 1) * bpow radix2 (-45)) by (rewrite E45, plus_IZR, mult_IZR; cbn; lra). apply held_ze; [reflexivity|lia].
  - assert (L4 : 4 <= ln a).
    { rewrite <- (ln_exp 4). assert (exp 4 <= 100). { replace 4 with (1 + 1 + (1 + 1)) by lra. rewrite !exp_plus. generalize exp_le_3, (exp_pos 1). intros. assert (0 <= exp 1 * exp 1 <= 9) by nra. nra. }
      destruct H as [H|H]; [left; apply ln_increasing; [apply exp_pos|unfold a; lra]|rewrite H; right; reflexivity]. }
    assert (L8 : ln c < 8).
    { rewrite <- (ln_exp 8). apply ln_increasing; [unfold c; rewrite E45; lra|]. unfold c. rewrite E45.
      replace 8 with (1 + 1 + (1 + 1) + (1 + 1 + (1 + 1))) by lra. rewrite !exp_plus. generalize (exp_ineq1 1 ltac:(lra)). intros. assert (4 <= exp 1 * exp 1) by nra. assert (16 <= exp 1 * exp 1 * (exp 1 * exp 1)) by nra. nra. }
    assert (Lab : ln a < ln b) by (apply ln_increasing; unfold a in *; lra).
    assert (Lbc : ln b < ln c) by (apply ln_increasing; unfold a in *; lra).
    assert (D : ln c - ln a <= / 3518437208883200).
    { assert (Lq : ln c - ln a = ln (c / a)) by (unfold Rdiv; rewrite ln_mult, ln_Rinv; [lra|unfold a; lra|unfold c; rewrite E45; lra|apply Rinv_0_lt_compat; unfold a; lra]). rewrite Lq.
      replace (c / a) with (1 + / 3518437208883200) by (unfold c, a; rewrite E45; field).
      rewrite <- (ln_exp (/ 3518437208883200)) at 2. left. apply ln_increasing; [lra|]. apply exp_ineq1. lra. }
    assert (G : forall x, 4 <= x < 8 -> binary64 x = IZR (ZnearestE (x * bpow radix2 50)) * bpow radix2 (-50)).
    { intros x Hx. unfold binary64, round, F2R, scaled_mantissa. cbn [Fnum Fexp].
      assert (Mx : mag radix2 x = 3%Z :> Z). { apply mag_unique. change (bpow radix2 (3 - 1)) with 4. change (bpow radix2 3) with 8. rewrite Rabs_pos_eq by lra. exact Hx. }
      assert (C : cexp radix2 fexp x = (-50)%Z) by (unfold cexp; rewrite Mx; reflexivity). rewrite C. reflexivity. }
    rewrite !G by lra. set (x := ln a * bpow radix2 50). set (y := ln b * bpow radix2 50). set (z := ln c * bpow radix2 50).
    assert (E50 : bpow radix2 50 = 1125899906842624) by (cbn; lra).
    assert (X : x <= y <= z /\ z - x < 1) by (unfold x, y, z; rewrite E50; lra).
    assert (N : ZnearestE x = ZnearestE y \/ ZnearestE y = ZnearestE z).
    { assert (Mon : forall u v, u <= v -> (ZnearestE u <= ZnearestE v)%Z) by (intros; apply (Zrnd_le ZnearestE); auto).
      assert (Mxy := Mon x y ltac:(lra)). assert (Myz := Mon y z ltac:(lra)).
      assert (Z2 : (ZnearestE z - ZnearestE x < 2)%Z).
      { apply lt_IZR. rewrite minus_IZR. generalize (Znearest_half (fun t => negb (Z.even t)) x) (Znearest_half (fun t => negb (Z.even t)) z). intros Hx Hz.
        apply Rabs_le_inv in Hx. apply Rabs_le_inv in Hz. lra. }
      lia. }
    destruct N as [N|N]; [left|right]; rewrite N; reflexivity.
Qed.
