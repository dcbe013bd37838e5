(** Determinants multiply: every alternating form that is linear in each row is a multiple of the determinant. *)
From Coq Require Import Reals Lra Psatz List Arith Bool Lia.
From Verif Require Import Num Sums Lin.
Import ListNotations.
Open Scope R_scope.

Record altform (n : nat) (F : mat -> R) : Prop := mkAlt {
  af_ext : forall A B, meq n A B -> F A = F B;
  af_lin : forall A r a b f g, (r < n)%nat -> F (rowset A r (fun j => a * f j + b * g j)) = a * F (rowset A r f) + b * F (rowset A r g);
  af_alt : forall A r s, r <> s -> (r < n)%nat -> (s < n)%nat -> (forall j, (j < n)%nat -> A r j = A s j) -> F A = 0
}.
Section Alt.
  Variables (n : nat) (F : mat -> R).
  Hypothesis H : altform n F.
  Lemma af_sum : forall A r c (e : nat -> nat -> R) m, (r < n)%nat -> F (rowset A r (fun j => sumn m (fun k => c k * e k j))) = sumn m (fun k => c k * F (rowset A r (e k))).
  Proof.
    intros A r c e m Hr. induction m as [|m IH].
    - rewrite S_0. rewrite (af_ext n F H _ (rowset A r (fun j => 0 * A r j + 0 * A r j))); [rewrite (af_lin n F H) by auto; ring|].
      intros i j _ _. unfold rowset. destruct (Nat.eqb i r); [rewrite S_0; ring|reflexivity].
    - rewrite S_succ, <- IH. rewrite (af_ext n F H _ (rowset A r (fun j => 1 * sumn m (fun k => c k * e k j) + c m * e m j))); [rewrite (af_lin n F H) by auto; ring|].
      intros i j _ _. unfold rowset. destruct (Nat.eqb i r); [rewrite S_succ; ring|reflexivity].
  Qed.
  Lemma af_swap : forall A r s, r <> s -> (r < n)%nat -> (s < n)%nat -> F (swap_rows A r s) = - F A.
  Proof.
    intros A r s Hne Hr Hs. set (f := A r). set (g := A s).
    assert (Z : forall h, F (rowset (rowset A r h) s h) = 0).
    { intros h. apply (af_alt n F H _ r s Hne Hr Hs). intros j _. rewrite rowset_same, rowset_other, rowset_same by auto. reflexivity. }
    assert (Ad : forall A r f g, (r < n)%nat -> F (rowset A r (fun j => f j + g j)) = F (rowset A r f) + F (rowset A r g)).
    { intros A' r' f' g' Hr'. rewrite (af_ext n F H _ (rowset A' r' (fun j => 1 * f' j + 1 * g' j))); [rewrite (af_lin n F H) by auto; ring|]. intros i j _ _. unfold rowset. destruct (Nat.eqb i r'); ring. }
    pose proof (Z (fun j => f j + g j)) as Q. rewrite Ad in Q by auto.
    assert (E : forall h h', F (rowset (rowset A r h) s h') = F (rowset (rowset A s h') r h)) by (intros; apply (af_ext n F H); intros i j _ _; apply rowset_comm; auto).
    rewrite !E, !Ad, <- !E in Q by auto. rewrite !Z in Q.
    assert (Efg : F (rowset (rowset A r f) s g) = F A).
    { apply (af_ext n F H). intros i j _ _. unfold rowset, f, g. destruct (Nat.eqb_spec i s); [subst; reflexivity|]. destruct (Nat.eqb_spec i r); subst; reflexivity. }
    rewrite Efg in Q. unfold swap_rows. fold f g. lra.
  Qed.
End Alt.

(** B with a column j of zeros inserted and the j-th unit row put on top *)
Definition unskip (j k : nat) : nat := if Nat.ltb k j then k else (k - 1)%nat.
Definition ins (j : nat) (B : mat) : mat := fun i k => match i with O => mid j k | S i' => if Nat.eqb k j then 0 else B i' (unskip j k) end.
Lemma unskip_skip : forall j k, unskip j (skip j k) = k.
Proof. intros. unfold unskip, skip. repeat match goal with |- context [Nat.ltb ?a ?b] => destruct (Nat.ltb_spec a b) end; lia. Qed.
Lemma skip_unskip : forall j k, k <> j -> skip j (unskip j k) = k.
Proof. intros. unfold unskip, skip. repeat match goal with |- context [Nat.ltb ?a ?b] => destruct (Nat.ltb_spec a b) end; lia. Qed.

Lemma clear_column : forall n F, altform (S n) F -> forall A j, (j < S n)%nat -> F (rowset A 0 (mid j)) = F (ins j (fun i k => A (S i) (skip j k))).
Proof.
  intros n F H A j Hj. set (C := fun m i k => match i with O => mid j k | S i' => if Nat.ltb i' m && Nat.eqb k j then 0 else A i k end).
  assert (G : forall m, (m <= n)%nat -> F (rowset A 0 (mid j)) = F (C m)).
  { induction m as [|m IH]; intros Hm.
    - apply (af_ext _ _ H). intros [|i] k _ _; reflexivity.
    - rewrite IH by lia. rewrite (af_ext _ _ H (C m) (rowset (C m) (S m) (fun k => 1 * C (S m) (S m) k + A (S m) j * mid j k))).
      + rewrite (af_lin _ _ H) by lia. rewrite (af_alt _ _ H (rowset (C m) (S m) (mid j)) 0 (S m)) by (try lia; intros k _; rewrite rowset_same, rowset_other by lia; reflexivity).
        rewrite Rmult_0_r, Rplus_0_r, Rmult_1_l. apply (af_ext _ _ H). intros i k _ _. unfold rowset. destruct (Nat.eqb_spec i (S m)) as [->|Hne]; [reflexivity|].
        destruct i as [|i]; [reflexivity|]. unfold C. destruct (Nat.ltb_spec i m), (Nat.ltb_spec i (S m)); try lia; reflexivity.
      + intros i k _ _. unfold rowset. destruct (Nat.eqb_spec i (S m)) as [->|Hne]; [|reflexivity]. unfold C. rewrite (proj2 (Nat.ltb_ge m m)), (proj2 (Nat.ltb_lt m (S m))) by lia. cbn [andb]. unfold mid.
        rewrite (Nat.eqb_sym j k). destruct (Nat.eqb_spec k j) as [->|]; ring. }
  rewrite (G n) by lia. apply (af_ext _ _ H). intros [|i] k Hi Hk; [reflexivity|]. unfold C, ins. rewrite (proj2 (Nat.ltb_lt i n)) by lia. cbn [andb]. destruct (Nat.eqb_spec k j); [reflexivity|]. rewrite skip_unskip by auto. reflexivity.
Qed.
Lemma unskip_lt : forall n j k, (j < S n)%nat -> (k < S n)%nat -> k <> j -> (unskip j k < n)%nat.
Proof. intros. unfold unskip. destruct (Nat.ltb_spec k j); lia. Qed.
Lemma ins_alt : forall n F j, (j < S n)%nat -> altform (S n) F -> altform n (fun B => F (ins j B)).
Proof.
  intros n F j Hj H. split.
  - intros A B E. apply (af_ext _ _ H). intros [|i] k Hi Hk; [reflexivity|]. cbn. destruct (Nat.eqb_spec k j); [reflexivity|]. apply E; [lia|apply unskip_lt; auto].
  - intros A r a b f g Hr. set (z := fun (h : nat -> R) k => if Nat.eqb k j then 0 else h (unskip j k)).
    assert (E : forall h, meq (S n) (ins j (rowset A r h)) (rowset (ins j A) (S r) (z h))).
    { intros h [|i] k _ _; [reflexivity|]. unfold ins, rowset, z. cbn [Nat.eqb]. destruct (Nat.eqb k j), (Nat.eqb i r); reflexivity. }
    rewrite !(af_ext _ _ H _ _ (E _)). rewrite <- (af_lin _ _ H) by lia. apply (af_ext _ _ H). intros i k _ _. unfold rowset, z. destruct (Nat.eqb i (S r)), (Nat.eqb k j); ring.
  - intros A r s Hne Hr Hs E. apply (af_alt _ _ H _ (S r) (S s)); [lia|lia|lia|]. intros k Hk. cbn. destruct (Nat.eqb_spec k j); [reflexivity|]. apply E. apply unskip_lt; auto.
Qed.
(** the unit rows in the order j, 0, 1, ..., j - 1, j + 1, ... *)
Lemma ins_sign : forall n F j, (j < S n)%nat -> altform (S n) F -> F (ins j mid) = (-1) ^ j * F mid.
Proof.
  intros n F j Hj H. set (C := fun t : nat => (fun i k => if Nat.ltb i t then mid i k else if Nat.eqb i t then mid j k else if Nat.leb i j then mid (i - 1)%nat k else mid i k) : mat).
  assert (G : forall t, (t <= j)%nat -> F (C t) = (-1) ^ t * F (C 0%nat)).
  { induction t as [|t IH]; intros Ht; [cbn; ring|]. cbn [pow]. rewrite Rmult_assoc, <- IH by lia.
    replace (-1 * F (C t)) with (- F (C t)) by ring. rewrite <- (af_swap _ _ H (C t) t (S t)) by lia. apply (af_ext _ _ H). intros i k _ _. unfold swap_rows, rowset, C.
    destruct (Nat.eqb_spec i (S t)) as [->|N1].
    - rewrite (proj2 (Nat.ltb_ge t t)), Nat.eqb_refl, (proj2 (Nat.ltb_ge (S t) (S t))) by lia. reflexivity.
    - destruct (Nat.eqb_spec i t) as [->|N2].
      + rewrite (proj2 (Nat.ltb_lt t (S t))), (proj2 (Nat.ltb_ge (S t) t)), (proj2 (Nat.eqb_neq (S t) t)), (proj2 (Nat.leb_le (S t) j)) by lia. replace (S t - 1)%nat with t by lia. reflexivity.
      + destruct (Nat.ltb_spec i (S t)), (Nat.ltb_spec i t); try lia; reflexivity. }
  assert (E0 : F (ins j mid) = F (C 0%nat)).
  { apply (af_ext _ _ H). intros [|i] k Hi Hk; [reflexivity|]. unfold ins, C. cbn [Nat.ltb Nat.leb Nat.eqb]. replace (S i - 1)%nat with i by lia. unfold mid, unskip.
    destruct (Nat.eqb_spec k j) as [->|N].
    - change (Nat.ltb (S i) 0) with false. cbv iota. change (match j with O => false | S m' => Nat.leb i m' end) with (Nat.leb (S i) j). destruct (Nat.leb_spec (S i) j).
      + rewrite (proj2 (Nat.eqb_neq i j)) by lia. reflexivity.
      + rewrite (proj2 (Nat.eqb_neq (S i) j)) by lia. reflexivity.
    - change (match j with O => false | S m' => Nat.leb i m' end) with (Nat.leb (S i) j). destruct (Nat.leb_spec (S i) j), (Nat.ltb_spec k j).
      + reflexivity.
      + rewrite (proj2 (Nat.eqb_neq i (k - 1))), (proj2 (Nat.eqb_neq i k)) by lia. reflexivity.
      + rewrite (proj2 (Nat.eqb_neq i k)), (proj2 (Nat.eqb_neq (S i) k)) by lia. reflexivity.
      + destruct (Nat.eqb_spec i (k - 1)), (Nat.eqb_spec (S i) k); try lia; reflexivity. }
  assert (Ej : F (C j) = F mid).
  { apply (af_ext _ _ H). intros i k Hi Hk. unfold C. destruct (Nat.ltb_spec i j); [reflexivity|]. destruct (Nat.eqb_spec i j) as [->|]; [reflexivity|]. rewrite (proj2 (Nat.leb_gt i j)) by lia. reflexivity. }
  rewrite E0, <- Ej, (G j) by lia. rewrite <- Rmult_assoc, <- Rpow_mult_distr. replace (-1 * -1) with 1 by ring. rewrite pow1. ring.
Qed.
Theorem altform_det : forall n F, altform n F -> forall A, F A = det n A * F mid.
Proof.
  induction n as [|n IH]; intros F H A.
  - cbn [det]. rewrite Rmult_1_l. apply (af_ext _ _ H). intros i j Hi. lia.
  - rewrite (af_ext _ _ H A (rowset A 0 (fun j => sumn (S n) (fun k => A 0%nat k * mid k j)))).
    2:{ intros i j Hi Hj. unfold rowset. destruct (Nat.eqb_spec i 0) as [->|]; [|reflexivity]. rewrite (S_single (S n) _ j Hj).
        - unfold mid. rewrite Nat.eqb_refl. ring.
        - intros k _ Hk. unfold mid. rewrite (proj2 (Nat.eqb_neq k j)) by auto. ring. }
    rewrite (af_sum _ _ H) by lia. cbn [det]. rewrite <- S_scal_r. apply S_ext. intros j Hj. rewrite (clear_column n F H A j Hj).
    rewrite (IH (fun B => F (ins j B)) (ins_alt n F j Hj H)), (ins_sign n F j Hj H). ring.
Qed.
Theorem det_mmul : forall n A B, det n (mmul n A B) = det n A * det n B.
Proof.
  intros n A B. rewrite (altform_det n (fun A => det n (mmul n A B))).
  - f_equal. apply det_ext. apply mmul_id_l.
  - split.
    + intros X Y E. apply det_ext. apply mmul_ext; [auto|apply meq_refl].
    + intros X r a b f g Hr. assert (E : forall h, meq n (mmul n (rowset X r h) B) (rowset (mmul n X B) r (fun j => sumn n (fun k => h k * B k j)))).
      { intros h i j _ _. unfold mmul, rowset. destruct (Nat.eqb i r); reflexivity. }
      rewrite !(det_ext n _ _ (E _)), <- det_linear by auto. apply det_ext. intros i j _ _. unfold rowset. destruct (Nat.eqb i r); [|reflexivity]. rewrite <- !S_scal, <- S_plus. apply S_ext. intros k _. ring.
    + intros X r s Hne Hr Hs E. apply (det_same_rows n _ r s Hne Hr Hs). intros j _. unfold mmul. apply S_ext. intros k Hk. rewrite E; auto.
Qed.
(** a right inverse is a left inverse of a symmetric matrix *)
Lemma inverse_symmetric : forall n q Q, symmetric n q -> meq n (mmul n q Q) mid -> meq n (mmul n Q q) mid.
Proof.
  intros n q Q Hs HQ. assert (T : meq n (mmul n (mtr Q) q) mid).
  { intros i j Hi Hj. assert (E : mmul n (mtr Q) q i j = mmul n q Q j i).
    { unfold mmul, mtr. apply S_ext. intros k Hk. rewrite (Hs k j Hk Hj). unfold mtr. ring. }
    rewrite E, HQ by auto. unfold mid. rewrite Nat.eqb_sym. reflexivity. }
  assert (EQ : meq n (mtr Q) Q).
  { intros i j Hi Hj. rewrite <- (mmul_id_r n (mtr Q) i j Hi Hj), <- (mmul_ext n _ _ _ _ (meq_refl n (mtr Q)) HQ i j Hi Hj), <- mmul_assoc.
    rewrite (mmul_ext n _ mid Q Q T (meq_refl n Q) i j Hi Hj). apply mmul_id_l; auto. }
  intros i j Hi Hj. rewrite <- (mmul_ext n _ _ q q EQ (meq_refl n q) i j Hi Hj). apply T; auto.
Qed.
