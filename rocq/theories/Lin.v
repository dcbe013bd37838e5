(** Real matrices as functions of two indices, with the little linear algebra the proofs need: determinants, triangular
    factors, positive definite matrices. *)
From Coq Require Import Reals Lra Psatz List Arith Bool Lia.
From Verif Require Import Num Sums.
Import ListNotations.
Open Scope R_scope.

Definition mat := nat -> nat -> R.
Definition mmul (n : nat) (A B : mat) : mat := fun i j => sumn n (fun k => A i k * B k j).
Definition mtr (A : mat) : mat := fun i j => A j i.
Definition mid : mat := fun i j => if Nat.eqb i j then 1 else 0.
Definition trace (n : nat) (A : mat) : R := sumn n (fun i => A i i).
(** equal on the first n rows and columns *)
Definition meq (n : nat) (A B : mat) : Prop := forall i j, (i < n)%nat -> (j < n)%nat -> A i j = B i j.
(** column k without column j *)
Definition skip (j k : nat) : nat := if Nat.ltb k j then k else S k.
(** determinant, expanded along the first row *)
Fixpoint det (n : nat) (A : mat) : R :=
  match n with
  | O => 1
  | S m => sumn (S m) (fun j => (-1) ^ j * A 0%nat j * det m (fun i k => A (S i) (skip j k)))
  end.

(* ------------------------------------------------------------------ *)
(** ** determinants *)

Lemma skip_lt : forall n j k, (j < S n)%nat -> (k < n)%nat -> (skip j k < S n)%nat.
Proof. intros. unfold skip. destruct (Nat.ltb_spec k j); lia. Qed.
Lemma det_ext : forall n A B, meq n A B -> det n A = det n B.
Proof.
  induction n as [|n IH]; intros A B H; [reflexivity|]. cbn [det]. apply S_ext. intros j Hj. rewrite (H 0%nat j) by lia. f_equal. apply IH.
  intros i k Hi Hk. apply H; [lia|]. apply skip_lt; auto.
Qed.
Definition rowset (A : mat) (r : nat) (f : nat -> R) : mat := fun i j => if Nat.eqb i r then f j else A i j.
Lemma rowset_same : forall A r f j, rowset A r f r j = f j.
Proof. intros. unfold rowset. rewrite Nat.eqb_refl. reflexivity. Qed.
Lemma rowset_other : forall A r f i j, i <> r -> rowset A r f i j = A i j.
Proof. intros. unfold rowset. rewrite (proj2 (Nat.eqb_neq i r)) by auto. reflexivity. Qed.
Lemma rowset_id : forall A r i j, rowset A r (A r) i j = A i j.
Proof. intros. unfold rowset. destruct (Nat.eqb_spec i r); subst; reflexivity. Qed.

Lemma det_linear : forall n A r a b f g, (r < n)%nat ->
  det n (rowset A r (fun j => a * f j + b * g j)) = a * det n (rowset A r f) + b * det n (rowset A r g).
Proof.
  induction n as [|n IH]; intros A r a b f g Hr; [lia|]. cbn [det]. destruct r as [|r].
  - rewrite <- !S_scal, <- S_plus. apply S_ext. intros j Hj. unfold rowset. cbn [Nat.eqb]. ring.
  - rewrite <- !S_scal, <- S_plus. apply S_ext. intros j Hj.
    assert (E : forall h, det n (fun i k => rowset A (S r) h (S i) (skip j k)) = det n (rowset (fun i k => A (S i) (skip j k)) r (fun k => h (skip j k)))).
    { intros h. apply det_ext. intros i k _ _. reflexivity. }
    rewrite !E. rewrite (IH _ r a b (fun k => f (skip j k)) (fun k => g (skip j k))) by lia. unfold rowset at 1 4 6. cbn [Nat.eqb]. ring.
Qed.
Lemma det_scale : forall n A r a f, (r < n)%nat -> det n (rowset A r (fun j => a * f j)) = a * det n (rowset A r f).
Proof.
  intros n A r a f Hr. pose proof (det_linear n A r a 0 f f Hr) as H. rewrite Rmult_0_l, Rplus_0_r in H. rewrite <- H. apply det_ext. intros i j _ _. unfold rowset.
  destruct (Nat.eqb i r); ring.
Qed.
Lemma det_add : forall n A r f g, (r < n)%nat -> det n (rowset A r (fun j => f j + g j)) = det n (rowset A r f) + det n (rowset A r g).
Proof.
  intros n A r f g Hr. pose proof (det_linear n A r 1 1 f g Hr) as H. rewrite !Rmult_1_l in H. rewrite <- H. apply det_ext. intros i j _ _. unfold rowset.
  destruct (Nat.eqb i r); ring.
Qed.

Lemma alternate_sum : forall m F, (forall j k, (j <= k)%nat -> (k < m)%nat -> F (S k) j = - F j k) -> sumn (S m) (fun j => sumn m (F j)) = 0.
Proof.
  induction m as [|m IH]; intros F H.
  - rewrite S_succ, !S_0. ring.
  - rewrite S_succ. rewrite (S_ext (S m) _ (fun j => sumn m (F j) + F j m)) by (intros; apply S_succ). rewrite S_plus, IH by (intros; apply H; lia).
    rewrite (S_ext (S m) (F (S m)) (fun k => - F k m)) by (intros; apply H; lia). rewrite S_opp. ring.
Qed.
Lemma det_adjacent : forall n A r, (S r < n)%nat -> (forall j, (j < n)%nat -> A r j = A (S r) j) -> det n A = 0.
Proof.
  induction n as [|n IH]; intros A r Hr He; [lia|]. destruct r as [|r].
  - destruct n as [|m]; [lia|]. cbn [det].
    rewrite (S_ext (S (S m)) _ (fun j => sumn (S m) (fun k => (-1) ^ j * A 0%nat j * ((-1) ^ k * A 1%nat (skip j k) * det m (fun i c => A (S (S i)) (skip j (skip k c))))))).
    2:{ intros j _. rewrite <- S_scal. reflexivity. }
    apply (alternate_sum (S m)). intros j k Hjk Hk.
    assert (E : forall c, skip (S k) (skip j c) = skip j (skip k c)) by (intros c; unfold skip; repeat match goal with |- context [Nat.ltb ?a ?b] => destruct (Nat.ltb_spec a b) end; lia).
    rewrite (det_ext m (fun i c => A (S (S i)) (skip (S k) (skip j c))) (fun i c => A (S (S i)) (skip j (skip k c)))) by (intros i c _ _; rewrite E; reflexivity).
    replace (skip (S k) j) with j by (unfold skip; rewrite (proj2 (Nat.ltb_lt _ _)) by lia; reflexivity).
    replace (skip j k) with (S k) by (unfold skip; rewrite (proj2 (Nat.ltb_ge _ _)) by lia; reflexivity).
    rewrite <- (He j), <- (He (S k)) by lia. cbn [pow]. ring.
  - cbn [det]. rewrite (S_ext (S n) _ (fun _ => 0)); [apply S_zero|]. intros j Hj. rewrite (IH _ r); [ring|lia|]. intros k Hk. apply He. apply skip_lt; auto.
Qed.
Definition swap_rows (A : mat) (r s : nat) : mat := rowset (rowset A r (A s)) s (A r).
Lemma rowset_comm : forall A r s f g i j, r <> s -> rowset (rowset A r f) s g i j = rowset (rowset A s g) r f i j.
Proof. intros. unfold rowset. destruct (Nat.eqb_spec i r), (Nat.eqb_spec i s); subst; congruence. Qed.
Lemma rowset_twice : forall A r f g i j, rowset (rowset A r f) r g i j = rowset A r g i j.
Proof. intros. unfold rowset. destruct (Nat.eqb i r); reflexivity. Qed.
Lemma det_swap_adjacent : forall n A r, (S r < n)%nat -> det n (swap_rows A r (S r)) = - det n A.
Proof.
  intros n A r Hr. set (f := A r). set (g := A (S r)).
  assert (Z : forall h, det n (rowset (rowset A r h) (S r) h) = 0).
  { intros h. apply (det_adjacent n _ r Hr). intros j _. rewrite rowset_same, rowset_other, rowset_same by lia. reflexivity. }
  pose proof (Z (fun j => f j + g j)) as H. rewrite det_add in H by auto.
  assert (E : forall h h', det n (rowset (rowset A r h) (S r) h') = det n (rowset (rowset A (S r) h') r h)) by (intros; apply det_ext; intros i j _ _; apply rowset_comm; lia).
  rewrite !E, !det_add, <- !E in H by lia. rewrite !Z in H.
  assert (Efg : det n (rowset (rowset A r f) (S r) g) = det n A).
  { apply det_ext. intros i j _ _. unfold rowset, f, g. destruct (Nat.eqb_spec i (S r)); [subst; reflexivity|]. destruct (Nat.eqb_spec i r); subst; reflexivity. }
  rewrite Efg in H. unfold swap_rows. fold f g. lra.
Qed.
Lemma det_equal_rows : forall n d A r, (r + S d < n)%nat -> (forall j, (j < n)%nat -> A r j = A (r + S d)%nat j) -> det n A = 0.
Proof.
  intros n. induction d as [|d IH]; intros A r Hr He.
  - apply (det_adjacent n A r); [lia|]. intros j Hj. rewrite (He j Hj). f_equal. lia.
  - assert (H : det n (swap_rows A (r + S d) (S (r + S d))) = 0).
    { apply (IH _ r); [lia|]. intros j Hj. unfold swap_rows. rewrite rowset_other by lia. rewrite rowset_other by lia. rewrite rowset_other by lia. rewrite rowset_same.
      rewrite (He j Hj). f_equal. lia. }
    rewrite det_swap_adjacent in H by lia. lra.
Qed.
Lemma det_same_rows : forall n A r s, r <> s -> (r < n)%nat -> (s < n)%nat -> (forall j, (j < n)%nat -> A r j = A s j) -> det n A = 0.
Proof.
  intros n A r s Hne Hr Hs He. destruct (lt_dec r s).
  - apply (det_equal_rows n (s - r - 1) A r); [lia|]. intros j Hj. replace (r + S (s - r - 1))%nat with s by lia. auto.
  - apply (det_equal_rows n (r - s - 1) A s); [lia|]. intros j Hj. replace (s + S (r - s - 1))%nat with r by lia. symmetry. auto.
Qed.
(** a row replaced by a combination of the rows *)
Lemma det_combination : forall n A r c, (r < n)%nat -> det n (rowset A r (fun j => sumn n (fun k => c k * A k j))) = c r * det n A.
Proof.
  intros n A r c Hr.
  assert (G : forall m, (m <= n)%nat -> det n (rowset A r (fun j => sumn m (fun k => c k * A k j))) = (if Nat.ltb r m then c r else 0) * det n A).
  { induction m as [|m IH]; intros Hm.
    - replace (Nat.ltb r 0) with false by reflexivity. rewrite (det_ext n _ (rowset A r (fun j => 0 * A r j))).
      + rewrite det_scale by auto. ring.
      + intros i j _ _. unfold rowset. destruct (Nat.eqb i r); [rewrite S_0; ring|reflexivity].
    - rewrite (det_ext n _ (rowset A r (fun j => sumn m (fun k => c k * A k j) + c m * A m j))).
      2:{ intros i j _ _. unfold rowset. destruct (Nat.eqb i r); [apply S_succ|reflexivity]. }
      rewrite det_add, IH, det_scale by lia. destruct (Nat.eq_dec m r) as [->|Hne].
      + rewrite (det_ext n (rowset A r (A r)) A) by (intros i j _ _; apply rowset_id). rewrite (proj2 (Nat.ltb_ge r r)), (proj2 (Nat.ltb_lt r (S r))) by lia. ring.
      + rewrite (det_same_rows n (rowset A r (A m)) r m); [|auto|auto|lia|intros j _; rewrite rowset_same, rowset_other by auto; reflexivity].
        destruct (Nat.ltb_spec r m), (Nat.ltb_spec r (S m)); try lia; ring. }
  rewrite (G n) by lia. rewrite (proj2 (Nat.ltb_lt r n)) by auto. reflexivity.
Qed.

Definition lower (n : nat) (L : mat) : Prop := forall i j, (i < n)%nat -> (j < n)%nat -> (i < j)%nat -> L i j = 0.
Definition upper (n : nat) (U : mat) : Prop := forall i j, (i < n)%nat -> (j < n)%nat -> (j < i)%nat -> U i j = 0.
Fixpoint prodn (n : nat) (f : nat -> R) : R := match n with O => 1 | S m => prodn m f * f m end.

Lemma det_lower_mul : forall n L A, lower n L -> det n (mmul n L A) = prodn n (fun i => L i i) * det n A.
Proof.
  intros n L A HL.
  (* rows below t come from A, the others from the product *)
  set (M := fun t i j => if Nat.ltb i t then A i j else mmul n L A i j).
  assert (Step : forall t, (t < n)%nat -> det n (M t) = L t t * det n (M (S t))).
  { intros t Ht. rewrite <- (det_combination n (M (S t)) t (fun k => L t k) Ht). apply det_ext. intros i j Hi Hj. unfold rowset. destruct (Nat.eqb_spec i t) as [->|Hne].
    - unfold M at 1. rewrite (proj2 (Nat.ltb_ge t t)) by lia. unfold mmul. apply S_ext. intros k Hk. unfold M. destruct (Nat.ltb_spec k (S t)); [reflexivity|]. rewrite (HL t k) by lia. ring.
    - unfold M. destruct (Nat.ltb_spec i t), (Nat.ltb_spec i (S t)); try lia; reflexivity. }
  assert (K : forall t, (t <= n)%nat -> det n (M 0%nat) = prodn t (fun i => L i i) * det n (M t)).
  { induction t as [|t IH]; intros Ht; [cbn; ring|]. rewrite IH by lia. rewrite Step by lia. cbn [prodn]. ring. }
  rewrite (det_ext n (mmul n L A) (M 0%nat)) by (intros i j _ _; reflexivity). rewrite (K n) by lia. f_equal. apply det_ext.
  intros i j Hi _. unfold M. rewrite (proj2 (Nat.ltb_lt i n)) by auto. reflexivity.
Qed.
Lemma det_upper_mul : forall n U A, upper n U -> det n (mmul n U A) = prodn n (fun i => U i i) * det n A.
Proof.
  intros n U A HU. set (M := fun t i j => if Nat.ltb i t then mmul n U A i j else A i j).
  assert (Step : forall t, (t < n)%nat -> det n (M (S t)) = U t t * det n (M t)).
  { intros t Ht. rewrite <- (det_combination n (M t) t (fun k => U t k) Ht). apply det_ext. intros i j Hi Hj. unfold rowset. destruct (Nat.eqb_spec i t) as [->|Hne].
    - unfold M at 1. rewrite (proj2 (Nat.ltb_lt t (S t))) by lia. unfold mmul. apply S_ext. intros k Hk. unfold M. destruct (Nat.ltb_spec k t); [rewrite (HU t k) by lia; ring|]. reflexivity.
    - unfold M. destruct (Nat.ltb_spec i t), (Nat.ltb_spec i (S t)); try lia; reflexivity. }
  assert (K : forall t, (t <= n)%nat -> det n (M t) = prodn t (fun i => U i i) * det n (M 0%nat)).
  { induction t as [|t IH]; intros Ht; [cbn; ring|]. rewrite Step, IH by lia. cbn [prodn]. ring. }
  rewrite (det_ext n (mmul n U A) (M n)) by (intros i j Hi _; unfold M; rewrite (proj2 (Nat.ltb_lt i n)) by auto; reflexivity). rewrite (K n) by lia. reflexivity.
Qed.
Lemma det_mid : forall n, det n mid = 1.
Proof.
  induction n as [|n IH]; [reflexivity|]. cbn [det]. rewrite (S_single (S n) _ 0%nat) by (try lia; intros i _ Hne; unfold mid at 1; rewrite (proj2 (Nat.eqb_neq 0 i)) by auto; ring).
  rewrite (det_ext n _ mid); [rewrite IH; unfold mid; cbn; ring|]. intros i k _ _. unfold mid, skip. cbn. reflexivity.
Qed.

(* ------------------------------------------------------------------ *)
(** ** products *)

Lemma mmul_ext : forall n A A' B B', meq n A A' -> meq n B B' -> meq n (mmul n A B) (mmul n A' B').
Proof. intros n A A' B B' HA HB i j Hi Hj. unfold mmul. apply S_ext. intros k Hk. rewrite HA, HB by auto. reflexivity. Qed.
Lemma mmul_assoc : forall n A B C i j, mmul n (mmul n A B) C i j = mmul n A (mmul n B C) i j.
Proof.
  intros n A B C i j. unfold mmul. rewrite (S_ext n _ (fun k => sumn n (fun l => A i l * B l k * C k j))) by (intros; rewrite <- S_scal_r; reflexivity).
  rewrite S_swap. apply S_ext. intros l _. rewrite <- S_scal. apply S_ext. intros k _. ring.
Qed.
Lemma mmul_id_l : forall n A, meq n (mmul n mid A) A.
Proof.
  intros n A i j Hi Hj. unfold mmul. rewrite (S_single n _ i Hi); [unfold mid; rewrite Nat.eqb_refl; ring|]. intros k _ Hne. unfold mid. rewrite (proj2 (Nat.eqb_neq i k)) by auto. ring.
Qed.
Lemma mmul_id_r : forall n A, meq n (mmul n A mid) A.
Proof.
  intros n A i j Hi Hj. unfold mmul. rewrite (S_single n _ j Hj); [unfold mid; rewrite Nat.eqb_refl; ring|]. intros k _ Hne. unfold mid. rewrite (proj2 (Nat.eqb_neq k j)) by auto. ring.
Qed.
Lemma mtr_mmul : forall n A B i j, mtr (mmul n A B) i j = mmul n (mtr B) (mtr A) i j.
Proof. intros. unfold mtr, mmul. apply S_ext. intros. ring. Qed.
Lemma trace_comm : forall n A B, trace n (mmul n A B) = trace n (mmul n B A).
Proof. intros. unfold trace, mmul. rewrite S_swap. apply S_ext. intros k _. apply S_ext. intros i _. ring. Qed.
Lemma trace_ext : forall n A B, meq n A B -> trace n A = trace n B.
Proof. intros n A B H. unfold trace. apply S_ext. intros. apply H; auto. Qed.
Lemma meq_trans : forall n A B C, meq n A B -> meq n B C -> meq n A C.
Proof. intros n A B C H1 H2 i j Hi Hj. rewrite H1, H2 by auto. reflexivity. Qed.
Lemma meq_sym : forall n A B, meq n A B -> meq n B A.
Proof. intros n A B H i j Hi Hj. symmetry. auto. Qed.
Lemma meq_refl : forall n A, meq n A A.
Proof. intros n A i j _ _. reflexivity. Qed.

(* ------------------------------------------------------------------ *)
(** ** positive definite matrices *)

Definition symmetric (n : nat) (A : mat) : Prop := meq n A (mtr A).
(** x' A x *)
Definition quad (n : nat) (A : mat) (x : nat -> R) : R := sumn n (fun i => sumn n (fun j => x i * A i j * x j)).
Definition nonzero (n : nat) (x : nat -> R) : Prop := exists i, (i < n)%nat /\ x i <> 0.
Definition posdef (n : nat) (A : mat) : Prop := symmetric n A /\ forall x, nonzero n x -> 0 < quad n A x.

(** Cholesky factors exist *)
Theorem cholesky_exists : forall n A, posdef n A -> exists L, lower n L /\ (forall i, (i < n)%nat -> 0 < L i i) /\ meq n A (mmul n L (mtr L)).
Proof.
  induction n as [|n IH]; intros A [HS HP].
  - exists mid. split; [intros i j Hi; lia|]. split; [intros i Hi; lia|]. intros i j Hi; lia.
  - set (a := A 0%nat 0%nat). set (b := fun i => A (S i) 0%nat).
    assert (Ha : 0 < a).
    { pose proof (HP (fun i => if Nat.eqb i 0 then 1 else 0)) as H. assert (Q : quad (S n) A (fun i => if Nat.eqb i 0 then 1 else 0) = a).
      { unfold quad. rewrite (S_single (S n) _ 0%nat); [|lia|].
        - rewrite (S_single (S n) _ 0%nat); [cbn; unfold a; ring|lia|]. intros j _ Hne. rewrite (proj2 (Nat.eqb_neq j 0)) by auto. ring.
        - intros i _ Hne. rewrite (S_ext (S n) _ (fun _ => 0)); [apply S_zero|]. intros j _. rewrite (proj2 (Nat.eqb_neq i 0)) by auto. ring. }
      rewrite Q in H. apply H. exists 0%nat. split; [lia|cbn; lra]. }
    set (C := fun i j => A (S i) (S j) - b i * b j / a).
    assert (HC : posdef n C).
    { split.
      - intros i j Hi Hj. unfold C, mtr. rewrite (HS (S i) (S j)) by lia. unfold mtr. unfold Rdiv. ring.
      - intros x Hx. set (s := sumn n (fun i => b i * x i)).
        set (y := fun i => match i with O => - s / a | S k => x k end).
        assert (Hy : nonzero (S n) y) by (destruct Hx as (i & Hi & Hne); exists (S i); split; [lia|exact Hne]).
        pose proof (HP y Hy) as H. replace (quad n C x) with (quad (S n) A y); [exact H|].
        unfold quad. rewrite S_head. rewrite (S_ext n (fun i => sumn (S n) (fun j => y (S i) * A (S i) j * y j)) (fun i => x i * b i * (- s / a) + sumn n (fun j => x i * A (S i) (S j) * x j))).
        2:{ intros i Hi. rewrite S_head. reflexivity. }
        rewrite S_head. rewrite (S_ext n (fun j => y 0%nat * A 0%nat (S j) * y (S j)) (fun j => (- s / a) * (b j * x j))).
        2:{ intros j Hj. rewrite (HS 0%nat (S j)) by lia. cbn [y]. unfold mtr, b. ring. }
        rewrite S_scal. fold s. rewrite S_plus. rewrite (S_ext n (fun i => x i * b i * (- s / a)) (fun i => (- s / a) * (b i * x i))) by (intros; ring). rewrite S_scal. fold s. cbn [y]. fold a.
        rewrite (S_ext n (fun i => sumn n (fun j => x i * C i j * x j)) (fun i => sumn n (fun j => x i * A (S i) (S j) * x j) + (- s / a) * (b i * x i))).
        + rewrite S_plus, S_scal. fold s. field. lra.
        + intros i Hi. rewrite (S_ext n _ (fun j => x i * A (S i) (S j) * x j + (- (x i * b i) / a) * (b j * x j))) by (intros j Hj; unfold C, Rdiv; ring).
          rewrite S_plus, S_scal. fold s. unfold Rdiv. ring. }
    destruct (IH C HC) as (L & LL & LP & LE).
    exists (fun i j => match i, j with O, O => sqrt a | O, S _ => 0 | S i', O => b i' / sqrt a | S i', S j' => L i' j' end).
    assert (Hs : 0 < sqrt a) by (apply sqrt_lt_R0; auto). assert (Es : sqrt a * sqrt a = a) by (apply sqrt_sqrt; lra).
    split; [|split].
    + intros [|i] [|j] Hi Hj Hij; try lia; [reflexivity|]. apply LL; lia.
    + intros [|i] Hi; [auto|]. apply LP. lia.
    + intros i j Hi Hj. unfold mmul, mtr. rewrite S_head. destruct i as [|i], j as [|j].
      * rewrite (S_ext n _ (fun _ => 0)) by (intros; ring). rewrite S_zero, Es. unfold a. ring.
      * rewrite (S_ext n _ (fun _ => 0)) by (intros; ring). rewrite S_zero. rewrite (HS 0%nat (S j)) by lia. unfold mtr. fold (b j). field. lra.
      * rewrite (S_ext n _ (fun _ => 0)) by (intros; ring). rewrite S_zero. fold (b i). field. lra.
      * fold (mtr L). pose proof (LE i j ltac:(lia) ltac:(lia)) as E. unfold C, mmul, mtr in E.
        replace (b i / sqrt a * (b j / sqrt a)) with (b i * b j / a); [lra|]. rewrite <- Es at 1. field. lra.
Qed.
(** triangular matrices with a positive diagonal have triangular inverses *)
Theorem lower_inverse : forall n L, lower n L -> (forall i, (i < n)%nat -> 0 < L i i) ->
  exists B, lower n B /\ (forall i, (i < n)%nat -> B i i = / L i i) /\ meq n (mmul n B L) mid /\ meq n (mmul n L B) mid.
Proof.
  induction n as [|n IH]; intros L HL HP.
  - exists mid. split; [intros i j Hi; lia|]. split; [intros i Hi; lia|]. split; intros i j Hi; lia.
  - destruct (IH (fun i j => L (S i) (S j))) as (B & BL & BP & E1 & E2); [intros i j Hi Hj Hij; apply HL; lia|intros i Hi; apply HP; lia|].
    set (a := L 0%nat 0%nat). assert (Ha : 0 < a) by (apply HP; lia). set (b := fun i => L (S i) 0%nat).
    assert (Z : forall j, (j < n)%nat -> L 0%nat (S j) = 0) by (intros j Hj; apply HL; lia).
    exists (fun i j => match i, j with O, O => / a | O, S _ => 0 | S i', O => - sumn n (fun k => B i' k * b k) / a | S i', S j' => B i' j' end).
    split; [|split; [|split]].
    + intros [|i] [|j] Hi Hj Hij; try lia; [reflexivity|]. apply BL; lia.
    + intros [|i] Hi; [reflexivity|]. apply BP. lia.
    + intros i j Hi Hj. unfold mmul. rewrite S_head. destruct i as [|i], j as [|j].
      * fold a. rewrite (S_ext n _ (fun _ => 0)) by (intros; ring). rewrite S_zero. unfold mid. cbn. field. lra.
      * rewrite Z by lia. rewrite (S_ext n _ (fun _ => 0)) by (intros; ring). rewrite S_zero. unfold mid. cbn. ring.
      * fold a. fold b. fold (b i). rewrite (S_ext n (fun k => B i k * L (S k) 0%nat) (fun k => B i k * b k)) by reflexivity. unfold mid. cbn. field. lra.
      * rewrite Z by lia. pose proof (E1 i j ltac:(lia) ltac:(lia)) as E. unfold mmul in E. rewrite E. unfold mid. cbn. ring.
    + intros i j Hi Hj. unfold mmul. rewrite S_head. destruct i as [|i], j as [|j].
      * fold a. rewrite (S_ext n _ (fun _ => 0)) by (intros k Hk; rewrite Z by auto; ring). rewrite S_zero. unfold mid. cbn. field. lra.
      * rewrite (S_ext n _ (fun _ => 0)) by (intros k Hk; rewrite Z by auto; ring). rewrite S_zero. unfold mid. cbn. ring.
      * fold (b i). rewrite (S_ext n _ (fun k => (- / a) * (L (S i) (S k) * sumn n (fun l => B k l * b l)))) by (intros; unfold Rdiv; ring). rewrite S_scal.
        assert (Q : sumn n (fun k => L (S i) (S k) * sumn n (fun l => B k l * b l)) = b i).
        { rewrite (S_ext n _ (fun k => sumn n (fun l => L (S i) (S k) * B k l * b l))) by (intros k Hk; rewrite <- S_scal; apply S_ext; intros; ring).
          rewrite S_swap. rewrite (S_ext n _ (fun l => mid i l * b l)).
          - rewrite (S_single n _ i) by (try lia; intros l _ Hne; unfold mid; rewrite (proj2 (Nat.eqb_neq i l)) by auto; ring). unfold mid. rewrite Nat.eqb_refl. ring.
          - intros l Hl. rewrite S_scal_r. f_equal. apply (E2 i l); lia. }
        rewrite Q. unfold mid. cbn. field. lra.
      * pose proof (E2 i j ltac:(lia) ltac:(lia)) as E. unfold mmul in E. rewrite E. unfold mid. cbn. ring.
Qed.

(** matrices with orthonormal eigenvectors, the columns of U, and eigenvalues a *)
Definition spectral (n : nat) (U : mat) (a : nat -> R) : mat := fun i j => sumn n (fun k => U i k * a k * U j k).
Definition orthogonal (n : nat) (U : mat) : Prop := meq n (mmul n (mtr U) U) mid /\ meq n (mmul n U (mtr U)) mid.

Lemma trace_spectral : forall n U a, orthogonal n U -> trace n (spectral n U a) = sumn n a.
Proof.
  intros n U a [HU _]. unfold trace, spectral. rewrite S_swap. apply S_ext. intros k Hk. rewrite (S_ext n _ (fun i => a k * (mtr U k i * U i k))) by (intros; unfold mtr; ring).
  rewrite S_scal. pose proof (HU k k Hk Hk) as E. unfold mmul in E. rewrite E. unfold mid. rewrite Nat.eqb_refl. ring.
Qed.
