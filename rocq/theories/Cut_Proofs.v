(** The two singular values of [x, 1] and the least squares solution along the first direction. *)
From Coq Require Import Reals Lra List Arith Lia Bool.
From Verif Require Import Base Num Sums Feat_Proofs Sim_Model Cut_Model Cut_Spec.
Import ListNotations.
Open Scope R_scope.

Section Two.
  Variables a n b : R.
  Hypothesis Ha : 0 <= a.
  Hypothesis Hn : 0 < n.
  Hypothesis Hcs : b * b <= a * n.
  Let d := sqrt ((a - n) * (a - n) + 4 * (b * b)).
  Let l1 := (a + n + d) / 2.
  Let l2 := (a + n - d) / 2.
  Lemma d_sq : d * d = (a - n) * (a - n) + 4 * (b * b).
  Proof. unfold d. apply sqrt_sqrt. pose proof (Rle_0_sqr (a - n)) as A. pose proof (Rle_0_sqr b) as B. unfold Rsqr in A, B. lra. Qed.
  Lemma d_pos : 0 <= d. Proof. apply sqrt_pos. Qed.
  Lemma l1_ge : a <= l1 /\ n <= l1.
  Proof. pose proof d_sq. pose proof d_pos. assert (a - n <= d) by (unfold d; apply Rle_trans with (Rabs (a - n)); [apply Rle_abs|]; rewrite <- sqrt_Rsqr_abs; apply sqrt_le_1_alt; unfold Rsqr; nra).
    assert (n - a <= d) by (unfold d; apply Rle_trans with (Rabs (n - a)); [apply Rle_abs|]; rewrite <- sqrt_Rsqr_abs; apply sqrt_le_1_alt; unfold Rsqr; nra). unfold l1. lra. Qed.
  Lemma char : (l1 - a) * (l1 - n) = b * b.
  Proof. pose proof d_sq. unfold l1. replace ((a + n + d) / 2 - a) with ((d - (a - n)) / 2) by field. replace ((a + n + d) / 2 - n) with ((d + (a - n)) / 2) by field. nra. Qed.
  Lemma l_sum : l1 + l2 = a + n. Proof. unfold l1, l2. field. Qed.
  Lemma l_prod : l1 * l2 = a * n - b * b. Proof. pose proof d_sq. unfold l1, l2. nra. Qed.
  Lemma l2_range : 0 <= l2 <= l1.
  Proof. pose proof l_prod. pose proof l_sum. destruct l1_ge. pose proof d_pos. split; [|unfold l1, l2; lra]. destruct (Rle_dec 0 l2) as [|N]; auto. nra. Qed.
  (** the vector belongs to l1 *)
  Lemma top : let uw := if rleb n a then (l1 - n, b) else (b, l1 - a) in
    a * fst uw + b * snd uw = l1 * fst uw /\ b * fst uw + n * snd uw = l1 * snd uw /\ (l2 < l1 -> 0 < fst uw * fst uw + snd uw * snd uw).
  Proof.
    cbv zeta. pose proof char as C. destruct l1_ge as [G1 G2]. pose proof l_sum as S. destruct (rleb n a) eqn:E; cbn [fst snd].
    - apply rleb_true in E. split; [nra|]. split; [nra|]. intros L. destruct (Req_dec (l1 - n) 0) as [Z|Z]; [|nra]. exfalso. nra.
    - split; [nra|]. split; [nra|]. intros L. apply rleb_false in E. destruct (Req_dec (l1 - a) 0) as [Z|Z]; [|nra]. exfalso. nra.
  Qed.
  Lemma top_max : forall u w, u * u + w * w = 1 -> a * (u * u) + 2 * b * (u * w) + n * (w * w) <= l1.
  Proof.
    intros u w U. pose proof char as C. destruct l1_ge as [G1 G2].
    assert (K : 0 <= (l1 - a) * (u * u) - 2 * b * (u * w) + (l1 - n) * (w * w)).
    { destruct (Req_dec (l1 - a) 0) as [Z|Z].
      - rewrite Z in *. assert (B : b = 0) by nra. rewrite B. nra.
      - assert (P : 0 < l1 - a) by lra. apply Rmult_le_reg_l with (l1 - a); auto. rewrite Rmult_0_r.
        replace ((l1 - a) * ((l1 - a) * (u * u) - 2 * b * (u * w) + (l1 - n) * (w * w))) with (((l1 - a) * u - b * w) ^ 2 + ((l1 - a) * (l1 - n) - b * b) * (w * w)) by ring. rewrite C. replace (b * b - b * b) with 0 by ring. rewrite Rmult_0_l, Rplus_0_r. apply pow2_ge_0. }
    nra.
  Qed.
End Two.

(** which singular values count *)
Lemma cut_iff : forall p q r, 0 < p -> 0 <= q -> q <= p -> 0 <= r -> r < 1 -> (q <= r * p <-> p * q * (1 + r ^ 2) <= r * (p * p + q * q)).
Proof.
  intros p q r Hp Hq Hqp Hr Hr1. assert (E : r * (p * p + q * q) - p * q * (1 + r ^ 2) = (r * p - q) * (p - r * q)) by ring. assert (P : 0 < p - r * q) by nra. split; intros H.
  - assert (0 <= (r * p - q) * (p - r * q)) by nra. lra.
  - destruct (Rle_dec q (r * p)) as [|N]; auto. exfalso. assert ((r * p - q) * (p - r * q) < 0) by nra. lra.
Qed.

Lemma rsum_sq_nonneg : forall l, 0 <= rsum (map (fun a => a * a) l).
Proof. induction l as [|a l IH]; [cbn; lra|]. cbn [map rsum fold_right]. change (fold_right Rplus 0 (map (fun a => a * a) l)) with (rsum (map (fun a => a * a) l)). nra. Qed.
Lemma g_sq : forall u w x, rsum (map (fun a => (u * a + w) * (u * a + w)) x) = u * u * rsum (map (fun a => a * a) x) + 2 * (u * w) * rsum x + w * w * INR (length x).
Proof.
  intros u w x. induction x as [|a x IH]; [cbn; ring|]. cbn [map rsum fold_right length]. rewrite S_INR. change (fold_right Rplus 0 (map (fun a => (u * a + w) * (u * a + w)) x)) with (rsum (map (fun a => (u * a + w) * (u * a + w)) x)).
  rewrite IH. change (fold_right Rplus 0 (map (fun a => a * a) x)) with (rsum (map (fun a => a * a) x)). change (fold_right Rplus 0 x) with (rsum x). ring.
Qed.
Lemma g_y : forall u w x y, length x = length y -> rsum (map (fun p => (u * fst p + w) * snd p) (combine x y)) = u * rsum (map (fun p => fst p * snd p) (combine x y)) + w * rsum y.
Proof.
  intros u w x. induction x as [|a x IH]; intros [|c y] L; try discriminate; [cbn; ring|]. injection L as L. specialize (IH y L).
  change (rsum (map (fun p => (u * fst p + w) * snd p) (combine (a :: x) (c :: y)))) with ((u * a + w) * c + rsum (map (fun p => (u * fst p + w) * snd p) (combine x y))).
  change (rsum (map (fun p => fst p * snd p) (combine (a :: x) (c :: y)))) with (a * c + rsum (map (fun p => fst p * snd p) (combine x y))). change (rsum (c :: y)) with (c + rsum y). rewrite IH. ring.
Qed.
Lemma sums_of_moments : forall x, x <> [] -> rsum x = INR (length x) * level x /\ rsum (map (fun a => a * a) x) = INR (length x) * (level x ^ 2 + spread x ^ 2) /\ 0 <= spread x /\ 0 < INR (length x).
Proof.
  intros x Hx. assert (P : 0 < INR (length x)) by (apply lt_0_INR; destruct x; [congruence|cbn; lia]).
  assert (E1 : rsum x = INR (length x) * level x) by (unfold level, rmean; field; lra).
  assert (V : rvar 0 x * INR (length x) = rsum (map (fun a => (a - level x) * (a - level x)) x)) by (unfold rvar; rewrite Nat.sub_0_r; unfold level; field; lra).
  assert (Q : 0 <= rvar 0 x).
  { apply Rmult_le_reg_r with (INR (length x)); auto. rewrite V, Rmult_0_l. clear. induction x as [|a x IH]; [cbn; lra|]. generalize (level (a :: x)). intros m. clear IH. generalize (a :: x). intros l.
    induction l as [|c l IH]; [cbn; lra|]. cbn [map rsum fold_right]. change (fold_right Rplus 0 (map (fun a0 => (a0 - m) * (a0 - m)) l)) with (rsum (map (fun a0 => (a0 - m) * (a0 - m)) l)). pose proof (Rle_0_sqr (c - m)) as Z. unfold Rsqr in Z. lra. }
  split; [exact E1|]. split; [|split; [apply sqrt_pos|exact P]].
  assert (E2 : rsum (map (fun a => (a - level x) * (a - level x)) x) = rsum (map (fun a => a * a) x) - INR (length x) * level x ^ 2).
  { transitivity (rsum (map (fun a => (1 * a + - level x) * (1 * a + - level x)) x)); [apply rsum_ext; intros; ring|]. rewrite g_sq, E1. ring. }
  unfold spread. replace (sqrt (rvar 0 x) ^ 2) with (rvar 0 x) by (rewrite <- Rsqr_pow2, Rsqr_sqrt; auto). nra.
Qed.
