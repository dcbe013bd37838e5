(** Cholesky factorisation of real matrices: what np.linalg.cholesky returns, and when. *)
From Coq Require Import Reals Lra List Arith Lia Bool FunctionalExtensionality.
From Verif Require Import Base Num Sums Lin Sim_Model Sim_Spec Chol_Model.
Import ListNotations.
Open Scope R_scope.

(** the factor over the real numbers *)
Fixpoint rchol (C : mat) (k : nat) : mat :=
  match k with
  | O => fun _ _ => 0
  | S j =>
      let L := rchol C j in
      let dot i := sumn j (fun l => L i l * L j l) in
      let d := sqrt (C j j - dot j) in
      fun i l => if Nat.eqb l j then (if Nat.ltb i j then 0 else if Nat.eqb i j then d else (C i j - dot i) / d) else L i l
  end.
Definition pivot (C : mat) (k : nat) : R := C k k - sumn k (fun l => rchol C k k l * rchol C k k l).

Lemma SP : forall a b f, sumn (a + b) f = sumn a f + sumn b (fun l => f (a + l)%nat).
Proof. intros a b f. induction b as [|b IH]; [rewrite Nat.add_0_r, S_0; ring|]. rewrite Nat.add_succ_r, !S_succ, IH. ring. Qed.
Lemma nsum_sumn : forall k f g, nsum (map (fun l => nmul (Fin (f l)) (Fin (g l))) (seq 0 k)) = Fin (sumn k (fun l => f l * g l)).
Proof. intros k f g. cbn [nmul]. rewrite <- (map_map (fun l => f l * g l) Fin), nsum_fin. reflexivity. Qed.

Lemma chol_cols_ok : forall C k, (forall j, (j < k)%nat -> 0 < pivot C j) -> chol_cols (fun i j => Fin (C i j)) k = Ok (fun i j => Fin (rchol C k i j)).
Proof.
  intros C k. induction k as [|k IH]; intros H; [reflexivity|]. cbn [chol_cols]. rewrite IH by (intros; apply H; lia). cbn [bind]. cbv zeta. rewrite !nsum_sumn, nsub_fin.
  pose proof (H k ltac:(lia)) as P. unfold pivot in P. unfold ngtb. cbn [nltb]. unfold rltb. destruct (Rlt_dec 0 (C k k - sumn k (fun l => rchol C k k l * rchol C k k l))) as [_|N]; [|lra].
  rewrite nsqrt_fin by lra. f_equal. extensionality i. extensionality l. cbn [rchol]. destruct (Nat.eqb l k); [|reflexivity]. destruct (Nat.ltb i k); [reflexivity|]. destruct (Nat.eqb i k); [reflexivity|].
  rewrite nsum_sumn, nsub_fin, ndiv_fin; [reflexivity|]. intros Z. apply sqrt_eq_0 in Z; lra.
Qed.
Lemma chol_cols_bad : forall C k j, (j < k)%nat -> ~ 0 < pivot C j -> chol_cols (fun i j => Fin (C i j)) k = Raise LinAlgError.
Proof.
  intros C k. induction k as [|k IH]; intros j Hj N; [lia|]. cbn [chol_cols].
  assert (D : (forall i, (i < k)%nat -> 0 < pivot C i) \/ exists i, (i < k)%nat /\ ~ 0 < pivot C i).
  { clear. induction k as [|k IH]; [left; intros; lia|]. destruct IH as [IH|(i & Hi & N)]; [|right; exists i; split; [lia|auto]]. destruct (Rlt_dec 0 (pivot C k)) as [P|P]; [left|right; exists k; split; [lia|auto]].
    intros i Hi. destruct (Nat.eq_dec i k) as [->|]; [auto|apply IH; lia]. }
  destruct D as [D|(i & Hi & Ni)]; [|rewrite (IH i Hi Ni); reflexivity]. destruct (Nat.eq_dec j k) as [->|Hne]; [|exfalso; apply N, D; lia].
  rewrite chol_cols_ok by auto. cbn [bind]. cbv zeta. rewrite !nsum_sumn, nsub_fin. unfold ngtb. cbn [nltb]. unfold rltb. unfold pivot in N. destruct (Rlt_dec 0 (C k k - sumn k (fun l => rchol C k k l * rchol C k k l))); [contradiction|reflexivity].
Qed.

(** later columns do not change earlier ones *)
Lemma rchol_stable : forall C k i j, (j < k)%nat -> rchol C k i j = rchol C (S j) i j.
Proof.
  intros C k i j. induction k as [|k IH]; intros Hj; [lia|]. destruct (Nat.eq_dec j k) as [->|Hne]; [reflexivity|]. cbn [rchol]. rewrite (proj2 (Nat.eqb_neq j k)) by auto. cbv zeta. rewrite IH by lia. reflexivity.
Qed.
Lemma rchol_col : forall C j i, rchol C (S j) i j = if Nat.ltb i j then 0 else if Nat.eqb i j then sqrt (pivot C j) else (C i j - sumn j (fun l => rchol C j i l * rchol C j j l)) / sqrt (pivot C j).
Proof. intros C j i. cbn [rchol]. rewrite Nat.eqb_refl. reflexivity. Qed.

(** if a factor with positive diagonal exists, it is the computed one *)
Lemma rchol_unique : forall n C B, lower n B -> (forall i, (i < n)%nat -> 0 < B i i) -> (forall i j, (j <= i)%nat -> (i < n)%nat -> C i j = mmul n B (mtr B) i j) ->
  forall k, (k <= n)%nat -> (forall j, (j < k)%nat -> 0 < pivot C j) /\ (forall i j, (i < n)%nat -> (j < k)%nat -> rchol C k i j = B i j).
Proof.
  intros n C B HL HP HC k. induction k as [|k IH]; intros Hk; [split; intros; lia|]. destruct (IH ltac:(lia)) as [I1 I2].
  assert (E : forall i, (k <= i)%nat -> (i < n)%nat -> C i k = sumn k (fun l => rchol C k i l * rchol C k k l) + B i k * B k k).
  { intros i Hi Hin. rewrite HC by lia. unfold mmul, mtr. replace n with (S k + (n - S k))%nat by lia.
    rewrite SP, S_succ. rewrite (S_ext (n - S k) _ (fun _ => 0)) by (intros l Hl; rewrite (HL k (S k + l)%nat) by lia; ring). rewrite S_zero, Rplus_0_r. f_equal. apply S_ext. intros l Hl. rewrite !I2 by lia. reflexivity. }
  assert (Pk : pivot C k = B k k * B k k) by (unfold pivot; rewrite E by lia; ring). assert (Bk : 0 < B k k) by (apply HP; lia).
  split.
  - intros j Hj. destruct (Nat.eq_dec j k) as [->|]; [rewrite Pk; nra|apply I1; lia].
  - intros i j Hi Hj. destruct (Nat.eq_dec j k) as [->|Hne]; [|rewrite rchol_stable by lia; rewrite <- (rchol_stable C k) by lia; apply I2; lia].
    rewrite rchol_col, Pk, sqrt_square by lra. destruct (Nat.ltb_spec i k) as [Lt|Ge]; [symmetry; apply HL; lia|]. destruct (Nat.eqb_spec i k) as [->|Hik]; [reflexivity|]. rewrite (E i) by lia. field. lra.
Qed.
(** positive pivots: the computed matrix is the factor of the lower triangle *)
Lemma rchol_sound : forall n C, (forall j, (j < n)%nat -> 0 < pivot C j) ->
  let L := rchol C n in lower n L /\ (forall i, (i < n)%nat -> 0 < L i i) /\ (forall i j, (j <= i)%nat -> (i < n)%nat -> C i j = mmul n L (mtr L) i j).
Proof.
  intros n C HP L. assert (Lc : forall i j, (j < n)%nat -> L i j = if Nat.ltb i j then 0 else if Nat.eqb i j then sqrt (pivot C j) else (C i j - sumn j (fun l => L i l * L j l)) / sqrt (pivot C j)).
  { intros i j Hj. unfold L. rewrite rchol_stable by auto. rewrite rchol_col. destruct (Nat.ltb i j); [reflexivity|]. destruct (Nat.eqb i j); [reflexivity|]. do 2 f_equal. apply S_ext. intros l Hl. rewrite !(rchol_stable C n), !(rchol_stable C j) by lia. reflexivity. }
  assert (Pv : forall j, (j < n)%nat -> pivot C j = C j j - sumn j (fun l => L j l * L j l)).
  { intros j Hj. unfold pivot. f_equal. apply S_ext. intros l Hl. unfold L. rewrite !(rchol_stable C n), !(rchol_stable C j) by lia. reflexivity. }
  split; [|split].
  - intros i j Hi Hj Hij. rewrite Lc by auto. destruct (Nat.ltb_spec i j); [reflexivity|lia].
  - intros i Hi. rewrite Lc by auto. rewrite Nat.ltb_irrefl, Nat.eqb_refl. apply sqrt_lt_R0. auto.
  - intros i j Hji Hi. unfold mmul, mtr. replace n with (S j + (n - S j))%nat by lia.
    rewrite SP, S_succ. rewrite (S_ext (n - S j) _ (fun _ => 0)) by (intros l Hl; rewrite (Lc j (S j + l)%nat) by lia; destruct (Nat.ltb_spec j (S j + l)); [ring|lia]). rewrite S_zero, Rplus_0_r.
    assert (Sj : 0 < sqrt (pivot C j)) by (apply sqrt_lt_R0; apply HP; lia). rewrite (Lc j j), Nat.ltb_irrefl, Nat.eqb_refl by lia. rewrite (Lc i j) by lia. destruct (Nat.ltb_spec i j); [lia|]. destruct (Nat.eqb_spec i j) as [->|Hne].
    + rewrite sqrt_sqrt by (specialize (HP j ltac:(lia)); lra). rewrite Pv by lia. ring.
    + field. lra.
Qed.

Lemma gram_posdef : forall n L C, lower n L -> (forall i, (i < n)%nat -> 0 < L i i) -> meq n C (mmul n L (mtr L)) -> posdef n C.
Proof.
  intros n L C HL HP HC. split.
  - intros i j Hi Hj. unfold mtr. rewrite !HC by auto. unfold mmul, mtr. apply S_ext. intros; ring.
  - intros x Hx. set (y := fun k => sumn n (fun i => L i k * x i)).
    assert (Q : quad n C x = sumn n (fun k => y k * y k)).
    { unfold quad. rewrite (S_ext n _ (fun i => sumn n (fun k => (L i k * x i) * y k))).
      - rewrite S_swap. apply S_ext. intros k Hk. rewrite S_scal_r. reflexivity.
      - intros i Hi. rewrite (S_ext n _ (fun j => sumn n (fun k => (L i k * x i) * (L j k * x j)))).
        + rewrite S_swap. apply S_ext. intros k Hk. rewrite S_scal. reflexivity.
        + intros j Hj. rewrite HC by auto. unfold mmul, mtr. rewrite (S_ext n (fun k => L i k * x i * (L j k * x j)) (fun k => (x i * x j) * (L i k * L j k))) by (intros; ring). rewrite S_scal. ring. }
    rewrite Q. destruct (Rlt_dec 0 (sumn n (fun k => y k * y k))) as [P|N]; [exact P|exfalso].
    assert (Z : forall k, (k < n)%nat -> y k = 0).
    { intros k Hk. pose proof (S_ge_term n (fun k => y k * y k) k Hk ltac:(intros; nra)) as G. cbv beta in G. nra. }
    destruct (lower_inverse n L HL HP) as (B & _ & _ & BL & LB). destruct Hx as (i & Hi & Hne). apply Hne.
    (* x_i = sum_j (L B)_ji x_j *)
    assert (E : sumn n (fun j => mmul n L B j i * x j) = x i).
    { rewrite (S_single n _ i Hi); [rewrite LB by auto; unfold mid; rewrite Nat.eqb_refl; ring|]. intros j Hj Hji. rewrite LB by auto. unfold mid. rewrite (proj2 (Nat.eqb_neq j i)) by auto. ring. }
    rewrite <- E. unfold mmul. rewrite (S_ext n _ (fun j => sumn n (fun k => B k i * (L j k * x j)))) by (intros j Hj; rewrite <- S_scal_r; apply S_ext; intros; ring).
    rewrite S_swap. rewrite (S_ext n _ (fun _ => 0)); [apply S_zero|]. intros k Hk. rewrite S_scal. fold (y k). rewrite Z by auto. ring.
Qed.

Definition in_rows (n : nat) (L : mat) : mat := fun i j => if Nat.ltb i n then L i j else 0.
Lemma np_cholesky_pivots : forall n C,
  ((forall j, (j < n)%nat -> 0 < pivot C j) -> np_cholesky (farr n n C) = Ok (farr n n (in_rows n (rchol C n))))
  /\ (forall j, (j < n)%nat -> ~ 0 < pivot C j -> np_cholesky (farr n n C) = Raise LinAlgError).
Proof.
  intros n C. unfold np_cholesky. cbn [nrow ncol at2 farr]. rewrite Nat.eqb_refl. split.
  - intros H. rewrite chol_cols_ok by auto. cbn [bind]. unfold farr. do 2 f_equal. extensionality i. extensionality j. unfold in_rows. destruct (Nat.ltb i n); reflexivity.
  - intros j Hj N. rewrite (chol_cols_bad C n j Hj N). reflexivity.
Qed.
(** np.linalg.cholesky succeeds exactly on the positive definite (symmetric) matrices, and returns the factor *)
Theorem np_cholesky_spec : forall n C, symmetric n C ->
  (posdef n C -> exists l, np_cholesky (farr n n C) = Ok (farr n n l) /\ lower n l /\ (forall i, (i < n)%nat -> 0 < l i i) /\ meq n C (mmul n l (mtr l)))
  /\ (~ posdef n C -> np_cholesky (farr n n C) = Raise LinAlgError).
Proof.
  intros n C HS. destruct (np_cholesky_pivots n C) as [P1 P2]. split.
  - intros HC. destruct (cholesky_exists n C HC) as (B & BL & BP & BE). destruct (rchol_unique n C B BL BP ltac:(intros; apply BE; lia) n (le_n n)) as [U1 U2].
    exists (in_rows n (rchol C n)). split; [apply P1; auto|]. assert (E : meq n (in_rows n (rchol C n)) B) by (intros i j Hi Hj; unfold in_rows; destruct (Nat.ltb_spec i n); [apply U2; lia|lia]).
    split; [|split].
    + intros i j Hi Hj Hij. rewrite E by auto. apply BL; auto.
    + intros i Hi. rewrite E by auto. auto.
    + intros i j Hi Hj. rewrite BE by auto. unfold mmul, mtr. apply S_ext. intros k Hk. rewrite !E by auto. reflexivity.
  - intros HN. assert (D : (forall i, (i < n)%nat -> 0 < pivot C i) \/ exists i, (i < n)%nat /\ ~ 0 < pivot C i).
    { clear. induction n as [|k IH]; [left; intros; lia|]. destruct IH as [IH|(i & Hi & N)]; [|right; exists i; split; [lia|auto]]. destruct (Rlt_dec 0 (pivot C k)) as [P|P]; [left|right; exists k; split; [lia|auto]].
      intros i Hi. destruct (Nat.eq_dec i k) as [->|]; [auto|apply IH; lia]. }
    destruct D as [D|(i & Hi & Ni)]; [|apply (P2 i); auto]. exfalso. apply HN. destruct (rchol_sound n C D) as (S1 & S2 & S3). apply (gram_posdef n (rchol C n)); auto.
    intros i j Hi Hj. destruct (Nat.le_ge_cases j i) as [H|H]; [apply S3; auto|]. rewrite (HS i j) by auto. unfold mtr at 1. rewrite S3 by auto. unfold mmul, mtr. apply S_ext. intros; ring.
Qed.
(** only the lower triangle is read *)
Lemma rchol_lower_only : forall n C C', (forall i j, (j <= i)%nat -> (i < n)%nat -> C i j = C' i j) -> forall k, (k <= n)%nat ->
  (forall i j, (i < n)%nat -> rchol C k i j = rchol C' k i j) /\ (forall j, (j < k)%nat -> pivot C j = pivot C' j).
Proof.
  intros n C C' H k. induction k as [|k IH]; intros Hk; [split; [reflexivity|intros; lia]|]. destruct (IH ltac:(lia)) as [I1 I2].
  assert (Pk : pivot C k = pivot C' k) by (unfold pivot; rewrite H by lia; f_equal; apply S_ext; intros l Hl; rewrite I1 by lia; reflexivity). split.
  - intros i j Hi. destruct (Nat.eq_dec j k) as [->|Hne].
    + rewrite !rchol_col, Pk. destruct (Nat.ltb_spec i k); [reflexivity|]. destruct (Nat.eqb_spec i k); [reflexivity|]. rewrite H by lia. do 2 f_equal. apply S_ext. intros l Hl. rewrite !I1 by lia. reflexivity.
    + cbn [rchol]. rewrite (proj2 (Nat.eqb_neq j k)) by auto. cbv zeta. apply I1; auto.
  - intros j Hj. destruct (Nat.eq_dec j k) as [->|]; [auto|apply I2; lia].
Qed.
Theorem np_cholesky_lower_only : forall n C C', (forall i j, (j <= i)%nat -> (i < n)%nat -> C i j = C' i j) -> np_cholesky (farr n n C) = np_cholesky (farr n n C').
Proof.
  intros n C C' H. destruct (rchol_lower_only n C C' H n (le_n n)) as [I1 I2]. destruct (np_cholesky_pivots n C) as [P1 P2]. destruct (np_cholesky_pivots n C') as [Q1 Q2].
  assert (D : (forall i, (i < n)%nat -> 0 < pivot C i) \/ exists i, (i < n)%nat /\ ~ 0 < pivot C i).
  { clear. induction n as [|k IH]; [left; intros; lia|]. destruct IH as [IH|(i & Hi & N)]; [|right; exists i; split; [lia|auto]]. destruct (Rlt_dec 0 (pivot C k)) as [P|P]; [left|right; exists k; split; [lia|auto]].
    intros i Hi. destruct (Nat.eq_dec i k) as [->|]; [auto|apply IH; lia]. }
  destruct D as [D|(i & Hi & Ni)].
  - rewrite P1, Q1 by (intros j Hj; rewrite <- ?I2 by auto; auto). unfold farr. do 2 f_equal. extensionality i. extensionality j. unfold in_rows. destruct (Nat.ltb_spec i n); [rewrite I1 by auto|]; reflexivity.
  - rewrite (P2 i Hi Ni), (Q2 i Hi) by (rewrite <- I2 by auto; auto). reflexivity.
Qed.
