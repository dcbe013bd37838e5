(** C46: matrix divergences. *)
From Coq Require Import Reals Lra Psatz List Arith Bool Lia.
From Verif Require Import Base Num Sums Lin Div_Model.
Import ListNotations.
Open Scope R_scope.

Lemma ln_lt_sub1 : forall t, 0 < t -> t <> 1 -> ln t < t - 1.
Proof.
  intros t Ht Hne. assert (H : 1 + (t - 1) < exp (t - 1)) by (apply exp_ineq1; lra). replace (1 + (t - 1)) with t in H by ring.
  rewrite <- (ln_exp (t - 1)). apply ln_increasing; auto.
Qed.
Lemma ln_le_sub1' : forall t, 0 < t -> ln t <= t - 1.
Proof. intros t Ht. destruct (Req_dec t 1) as [->|H]; [rewrite ln_1; lra|]. apply Rlt_le, ln_lt_sub1; auto. Qed.
Lemma prodn_pos : forall n f, (forall i, (i < n)%nat -> 0 < f i) -> 0 < prodn n f.
Proof. induction n as [|n IH]; intros f H; cbn [prodn]; [lra|]. apply Rmult_lt_0_compat; [apply IH; intros; apply H; lia|apply H; lia]. Qed.
Lemma ln_prodn : forall n f, (forall i, (i < n)%nat -> 0 < f i) -> ln (prodn n f) = sumn n (fun i => ln (f i)).
Proof.
  induction n as [|n IH]; intros f H; cbn [prodn]; [rewrite ln_1; reflexivity|]. rewrite ln_mult, IH, S_succ; [reflexivity|intros; apply H; lia|apply prodn_pos; intros; apply H; lia|apply H; lia].
Qed.
Lemma prodn_ext : forall n f g, (forall i, (i < n)%nat -> f i = g i) -> prodn n f = prodn n g.
Proof. induction n as [|n IH]; intros f g H; cbn [prodn]; [reflexivity|]. rewrite (H n) by lia. rewrite (IH f g) by (intros; apply H; lia). reflexivity. Qed.
Lemma prodn_inv : forall n f, (forall i, (i < n)%nat -> 0 < f i) -> prodn n f * prodn n (fun i => / f i) = 1.
Proof.
  induction n as [|n IH]; intros f H; cbn [prodn]; [ring|]. assert (0 < f n) by (apply H; lia). replace (prodn n f * f n * (prodn n (fun i => / f i) * / f n)) with (prodn n f * prodn n (fun i => / f i)) by (field; lra).
  apply IH. intros; apply H; lia.
Qed.

(** [inverse n q Q]: Q is a right inverse of q *)
Definition inverse (n : nat) (q Q : mat) : Prop := meq n (mmul n q Q) mid.

(** A x with x given by its entries *)
Definition mvec (n : nat) (A : mat) (x : nat -> R) : nat -> R := fun i => sumn n (fun k => A i k * x k).
Lemma quad_conj : forall n B p x, quad n (mmul n (mmul n B p) (mtr B)) x = quad n p (mvec n (mtr B) x).
Proof.
  intros n B p x. unfold quad, mvec, mmul, mtr.
  transitivity (sumn n (fun i => sumn n (fun j => sumn n (fun k => sumn n (fun l => (x i * B i l) * p l k * (B j k * x j)))))).
  - apply S_ext. intros i _. apply S_ext. intros j _. rewrite Rmult_assoc, <- S_scal_r, <- S_scal. apply S_ext. intros k _. rewrite <- S_scal_r, <- S_scal_r, <- S_scal. apply S_ext. intros l _. ring.
  - transitivity (sumn n (fun l => sumn n (fun k => sumn n (fun i => sumn n (fun j => (x i * B i l) * p l k * (B j k * x j)))))).
    + rewrite (S_ext n _ (fun i => sumn n (fun k => sumn n (fun l => sumn n (fun j => (x i * B i l) * p l k * (B j k * x j)))))).
      2:{ intros i _. rewrite S_swap. apply S_ext. intros k _. apply S_swap. }
      rewrite S_swap. rewrite (S_ext n _ (fun k => sumn n (fun l => sumn n (fun i => sumn n (fun j => (x i * B i l) * p l k * (B j k * x j)))))) by (intros k _; apply S_swap).
      apply S_swap.
    + apply S_ext. intros l _. apply S_ext. intros k _. rewrite <- S_scal_r, <- S_scal_r.
      apply S_ext. intros i _. rewrite <- S_scal. apply S_ext. intros j _. ring.
Qed.

(** the divergence of two positive definite matrices in terms of a triangular matrix *)
Lemma divergence_factor : forall n p q Q, posdef n p -> posdef n q -> inverse n q Q ->
  exists K, lower n K /\ (forall i, (i < n)%nat -> 0 < K i i)
    /\ trace n (mmul n p Q) = sumn n (fun i => sumn n (fun j => K i j * K i j))
    /\ det n (mmul n p Q) = prodn n (fun i => K i i) * prodn n (fun i => K i i)
    /\ (meq n K mid -> meq n p q).
Proof.
  intros n p q Q Hp Hq HQ.
  destruct (cholesky_exists n q Hq) as (L & LL & LP & LE). destruct (lower_inverse n L LL LP) as (B & BL & BP & E1 & E2).
  set (M := mmul n (mmul n B p) (mtr B)).
  assert (HM : posdef n M).
  { destruct Hp as [Sp Pp]. split.
    - intros i j Hi Hj. unfold M, mtr, mmul.
      rewrite (S_ext n _ (fun k => sumn n (fun l => B i l * p l k * B j k))) by (intros; rewrite <- S_scal_r; reflexivity).
      rewrite (S_ext n (fun k => sumn n (fun k0 => B j k0 * p k0 k) * B i k) (fun k => sumn n (fun l => B j l * p l k * B i k))) by (intros; rewrite <- S_scal_r; reflexivity).
      rewrite S_swap. apply S_ext. intros l Hl. apply S_ext. intros k Hk. rewrite (Sp l k) by auto. unfold mtr. ring.
    - intros x Hx. unfold M. rewrite quad_conj. apply Pp.
      (* B' x is not zero, since L' (B' x) = x *)
      destruct Hx as (i & Hi & Hne). destruct (Exists_dec (fun k => mvec n (mtr B) x k <> 0) (seq 0 n)) as [H|H].
      { intros k. destruct (Req_EM_T (mvec n (mtr B) x k) 0); auto. }
      + apply Exists_exists in H as (k & Hk & Hk'). apply in_seq in Hk. exists k. split; [lia|auto].
      + exfalso. apply Hne. assert (Zr : forall k, (k < n)%nat -> mvec n (mtr B) x k = 0).
        { intros k Hk. destruct (Req_EM_T (mvec n (mtr B) x k) 0) as [|Hk']; [auto|]. exfalso. apply H. apply Exists_exists. exists k. split; [apply in_seq; lia|auto]. }
        assert (Ex : x i = sumn n (fun k => L k i * mvec n (mtr B) x k)).
        { unfold mvec, mtr. rewrite (S_ext n _ (fun k => sumn n (fun l => L k i * B l k * x l))) by (intros; rewrite <- S_scal; apply S_ext; intros; ring).
          rewrite S_swap. rewrite (S_ext n _ (fun l => mid l i * x l)).
          - rewrite (S_single n _ i Hi) by (intros l _ Hl; unfold mid; rewrite (proj2 (Nat.eqb_neq l i)) by auto; ring). unfold mid. rewrite Nat.eqb_refl. ring.
          - intros l Hl. rewrite S_scal_r. f_equal. rewrite <- (E1 l i Hl Hi). unfold mmul. apply S_ext. intros; ring. }
        rewrite Ex. rewrite (S_ext n _ (fun _ => 0)) by (intros k Hk; rewrite Zr by auto; ring). apply S_zero. }
  destruct (cholesky_exists n M HM) as (K & KL & KP & KE). exists K. split; [auto|]. split; [auto|].
  (* Q = B' B *)
  assert (HBB : meq n Q (mmul n (mtr B) B)).
  { assert (Inv : meq n (mmul n (mmul n (mtr B) B) q) mid).
    { intros i j Hi Hj. rewrite mmul_assoc.
      assert (T : meq n (mmul n B q) (mtr L)).
      { intros k l Hk Hl. rewrite (mmul_ext n B B q _ (meq_refl n B) LE k l Hk Hl), <- mmul_assoc.
        rewrite (mmul_ext n _ mid _ (mtr L) E1 (meq_refl n _) k l Hk Hl). apply mmul_id_l; auto. }
      rewrite (mmul_ext n _ _ _ _ (meq_refl n (mtr B)) T i j Hi Hj). rewrite <- mtr_mmul. unfold mtr. rewrite (E2 j i Hj Hi). unfold mid. rewrite Nat.eqb_sym. reflexivity. }
    intros i j Hi Hj. rewrite <- (mmul_id_l n Q i j Hi Hj). rewrite <- (mmul_ext n _ _ Q Q Inv (meq_refl n Q) i j Hi Hj). rewrite mmul_assoc.
    rewrite (mmul_ext n _ _ _ _ (meq_refl n _) HQ i j Hi Hj). apply mmul_id_r; auto. }
  (* p Q = L (M B) *)
  assert (HpQ : meq n (mmul n p Q) (mmul n L (mmul n M B))).
  { intros i j Hi Hj. rewrite (mmul_ext n p p Q _ (meq_refl n p) HBB i j Hi Hj). rewrite <- mmul_assoc.
    assert (X : meq n (mmul n L M) (mmul n p (mtr B))).
    { intros k l Hk Hl. unfold M. rewrite <- mmul_assoc. apply mmul_ext; [|apply meq_refl|auto|auto].
      intros a c Ha Hc. rewrite <- mmul_assoc. rewrite (mmul_ext n _ mid p p E2 (meq_refl n p) a c Ha Hc). apply mmul_id_l; auto. }
    rewrite <- (mmul_ext n _ _ B B X (meq_refl n B) i j Hi Hj). apply mmul_assoc. }
  split; [|split].
  - rewrite (trace_ext n _ _ HpQ), trace_comm.
    rewrite (trace_ext n _ (mmul n K (mtr K))).
    + unfold trace. apply S_ext. intros i _. reflexivity.
    + intros i j Hi Hj. rewrite mmul_assoc. rewrite (mmul_ext n M M _ mid (meq_refl n M) E1 i j Hi Hj). rewrite (mmul_id_r n M i j Hi Hj). apply KE; auto.
  - rewrite (det_ext n _ _ HpQ), det_lower_mul by auto.
    assert (X : meq n (mmul n M B) (mmul n K (mmul n (mtr K) B))).
    { intros i j Hi Hj. rewrite <- mmul_assoc. apply (mmul_ext n M _ B B KE (meq_refl n B)); auto. }
    rewrite (det_ext n _ _ X), det_lower_mul by auto. rewrite det_upper_mul by (intros i j Hi Hj Hij; unfold mtr; apply KL; auto).
    rewrite (det_ext n B (mmul n B mid)) by (apply meq_sym, mmul_id_r). rewrite det_lower_mul, det_mid by auto. unfold mtr at 1.
    rewrite (prodn_ext n (fun i => B i i) (fun i => / L i i)) by auto. pose proof (prodn_inv n (fun i => L i i) LP) as PI.
    set (a := prodn n (fun i => L i i)) in *. set (b := prodn n (fun i => / L i i)) in *. set (c := prodn n (fun i => K i i)) in *.
    replace (a * (c * (c * (b * 1)))) with ((a * b) * (c * c)) by ring. rewrite PI. ring.
  - intros KI. (* M = 1, so p = L L' *)
    assert (MI : meq n M mid).
    { apply (meq_trans n _ _ _ KE). intros i j Hi Hj. assert (KT : meq n (mtr K) mid) by (intros k l Hk Hl; unfold mtr; rewrite KI by auto; unfold mid; rewrite Nat.eqb_sym; reflexivity).
      rewrite (mmul_ext n K mid (mtr K) mid KI KT i j Hi Hj). apply mmul_id_l; auto. }
    intros i j Hi Hj. rewrite (LE i j Hi Hj).
    assert (X : meq n (mmul n (mmul n L M) (mtr L)) p).
    { assert (X1 : meq n (mmul n L M) (mmul n p (mtr B))).
      { intros k l Hk Hl. unfold M. rewrite <- mmul_assoc. apply mmul_ext; [|apply meq_refl|auto|auto].
        intros a c Ha Hc. rewrite <- mmul_assoc. rewrite (mmul_ext n _ mid p p E2 (meq_refl n p) a c Ha Hc). apply mmul_id_l; auto. }
      intros k l Hk Hl. rewrite (mmul_ext n _ _ _ _ X1 (meq_refl n (mtr L)) k l Hk Hl), mmul_assoc.
      assert (X2 : meq n (mmul n (mtr B) (mtr L)) mid).
      { intros a c Ha Hc. rewrite <- mtr_mmul. unfold mtr. rewrite (E2 c a Hc Ha). unfold mid. rewrite Nat.eqb_sym. reflexivity. }
      rewrite (mmul_ext n p p _ _ (meq_refl n p) X2 k l Hk Hl). apply mmul_id_r; auto. }
    rewrite <- (X i j Hi Hj). rewrite mmul_assoc. rewrite (mmul_ext n L L _ _ (meq_refl n L) (mmul_ext n _ _ _ _ MI (meq_refl n (mtr L))) i j Hi Hj).
    apply mmul_ext; [apply meq_refl|apply mmul_id_l|auto|auto].
Qed.

(** For symmetric positive definite matrices which pass the check, the log-determinant divergence is a non-negative number, and
    zero only between equal matrices. *)
Theorem C46_log_det_nonneg : forall eigpos inv n p q Q, posdef n p -> posdef n q ->
  eigpos (mkM n n p) = true -> eigpos (mkM n n q) = true -> inv (mkM n n q) = Ok Q -> inverse n q Q ->
  exists d, log_det_divergence eigpos inv (mkM n n p) (mkM n n q) = Ok (Fin d) /\ 0 <= d /\ (d = 0 <-> meq n p q).
Proof.
  intros eigpos inv n p q Q Hp Hq Cp Cq Ei HQ. unfold log_det_divergence, assert_positive_definite, check_positive, square. cbn [mrows mcols]. rewrite Nat.eqb_refl. cbn [negb].
  rewrite Cp, Cq, Ei. cbn [bind ent]. cbv zeta.
  destruct (divergence_factor n p q Q Hp Hq HQ) as (K & KL & KP & ET & ED & EQ).
  assert (PP : 0 < prodn n (fun i => K i i)) by (apply prodn_pos; auto).
  assert (Dpos : 0 < det n (mmul n p Q)) by (rewrite ED; nra).
  unfold slogdet. rewrite Rabs_right by lra. rewrite nlog_fin by auto. rewrite !nsub_fin. rewrite ED, ln_mult by auto. rewrite ln_prodn by auto. rewrite ET.
  set (D := sumn n (fun i => sumn n (fun j => K i j * K i j)) - (sumn n (fun i => ln (K i i)) + sumn n (fun i => ln (K i i))) - INR n).
  set (t := fun i => sumn n (fun j => K i j * K i j) - ln (K i i * K i i) - 1).
  assert (EDt : D = sumn n t).
  { unfold D, t. rewrite !S_minus. assert (E1 : sumn n (fun _ => 1) = INR n) by (unfold sumn; rewrite rsum_const, seq_length; ring).
    rewrite E1. rewrite (S_ext n (fun i => ln (K i i * K i i)) (fun i => ln (K i i) + ln (K i i))) by (intros i Hi; apply ln_mult; auto). rewrite S_plus. reflexivity. }
  assert (Row : forall i, (i < n)%nat -> K i i * K i i <= sumn n (fun j => K i j * K i j)).
  { intros i Hi. apply (S_ge_term n (fun j => K i j * K i j) i Hi). intros; nra. }
  assert (Tn : forall i, (i < n)%nat -> 0 <= t i).
  { intros i Hi. unfold t. pose proof (Row i Hi). pose proof (KP i Hi). pose proof (ln_le_sub1' (K i i * K i i) ltac:(nra)). lra. }
  exists D. split; [reflexivity|]. split; [rewrite EDt; apply S_nonneg; auto|]. split.
  - intros HD. apply EQ. intros i j Hi Hj. rewrite EDt in HD.
    assert (Ti : t i = 0) by (pose proof (S_ge_term n t i Hi Tn); pose proof (Tn i Hi); lra).
    pose proof (Row i Hi) as R1. pose proof (KP i Hi) as K1. unfold t in Ti.
    assert (Kii : K i i * K i i = 1).
    { destruct (Req_dec (K i i * K i i) 1) as [|Hne]; [auto|]. pose proof (ln_lt_sub1 (K i i * K i i) ltac:(nra) Hne). lra. }
    assert (K1' : K i i = 1) by nra. rewrite Kii, ln_1 in Ti.
    destruct (Nat.eq_dec i j) as [<-|Hne]; [unfold mid; rewrite Nat.eqb_refl; auto|].
    assert (K i i * K i i + K i j * K i j <= sumn n (fun j => K i j * K i j)).
    { rewrite <- (S_single n (fun k => if Nat.eqb k i then K i k * K i k else if Nat.eqb k j then K i k * K i k else 0 - 0) i Hi) at 1 || idtac.
      assert (Ea : sumn n (fun k => if Nat.eqb k i then K i k * K i k else 0) = K i i * K i i).
      { rewrite (S_single n _ i Hi); [rewrite Nat.eqb_refl; reflexivity|]. intros k _ Hk. rewrite (proj2 (Nat.eqb_neq k i)) by auto. reflexivity. }
      assert (Eb : sumn n (fun k => if Nat.eqb k j then K i k * K i k else 0) = K i j * K i j).
      { rewrite (S_single n _ j Hj); [rewrite Nat.eqb_refl; reflexivity|]. intros k _ Hk. rewrite (proj2 (Nat.eqb_neq k j)) by auto. reflexivity. }
      rewrite <- Ea, <- Eb, <- S_plus. apply S_le. intros k _. destruct (Nat.eqb_spec k i), (Nat.eqb_spec k j); subst; try congruence; nra. }
    unfold mid. rewrite (proj2 (Nat.eqb_neq i j)) by auto. nra.
  - intros Epq. assert (PI : meq n (mmul n p Q) mid) by (intros i j Hi Hj; rewrite (mmul_ext n p q Q Q Epq (meq_refl n Q) i j Hi Hj); apply HQ; auto).
    assert (T1 : trace n (mmul n p Q) = INR n).
    { rewrite (trace_ext n _ _ PI). unfold trace, mid. rewrite (S_ext n _ (fun _ => 1)) by (intros; rewrite Nat.eqb_refl; reflexivity). unfold sumn. rewrite rsum_const, seq_length. ring. }
    assert (D1 : det n (mmul n p Q) = 1) by (rewrite (det_ext n _ _ PI); apply det_mid).
    assert (L1 : sumn n (fun i => ln (K i i)) + sumn n (fun i => ln (K i i)) = 0).
    { rewrite <- ln_prodn by auto. rewrite <- ln_mult by auto. rewrite <- ED, D1. apply ln_1. }
    unfold D. rewrite <- ET, T1, L1. ring.
Qed.
Print Assumptions C46_log_det_nonneg.

(** Zero on equal arguments, positive definite or not, as soon as the check passes and the inverse is right. *)
Theorem C46_log_det_self : forall eigpos inv n p Q, eigpos (mkM n n p) = true -> inv (mkM n n p) = Ok Q -> inverse n p Q ->
  log_det_divergence eigpos inv (mkM n n p) (mkM n n p) = Ok (Fin 0).
Proof.
  intros eigpos inv n p Q Cp Ei HQ. unfold log_det_divergence, assert_positive_definite, check_positive, square. cbn [mrows mcols]. rewrite Nat.eqb_refl. cbn [negb].
  rewrite Cp. cbn [bind ent]. rewrite Ei. cbn [bind]. cbv zeta. unfold slogdet. rewrite (det_ext n _ _ HQ), det_mid, Rabs_R1. rewrite nlog_fin, ln_1 by lra. rewrite !nsub_fin. do 2 f_equal.
  rewrite (trace_ext n _ _ HQ). unfold trace, mid. rewrite (S_ext n _ (fun _ => 1)) by (intros; rewrite Nat.eqb_refl; reflexivity). unfold sumn. rewrite rsum_const, seq_length. ring.
Qed.
Print Assumptions C46_log_det_self.

(** The check looks at eigenvalues only, so matrices which are not symmetric pass it, and then the result can be negative: two
    triangular matrices with ones on the diagonal. *)
Definition m2 (a b c d : R) : mat := fun i j => match i, j with 0%nat, 0%nat => a | 0%nat, _ => b | _, 0%nat => c | _, _ => d end.
Theorem C46_nonneg_needs_symmetry : exists p q Q, upper 2 p /\ lower 2 q /\ (forall i, (i < 2)%nat -> p i i = 1 /\ q i i = 1) /\ inverse 2 q Q /\
  forall eigpos inv, eigpos (mkM 2 2 p) = true -> eigpos (mkM 2 2 q) = true -> inv (mkM 2 2 q) = Ok Q ->
  log_det_divergence eigpos inv (mkM 2 2 p) (mkM 2 2 q) = Ok (Fin (-4)).
Proof.
  exists (m2 1 2 0 1), (m2 1 0 2 1), (m2 1 0 (-2) 1).
  split; [intros [|[|i]] [|[|j]] Hi Hj H; try lia; reflexivity|]. split; [intros [|[|i]] [|[|j]] Hi Hj H; try lia; reflexivity|].
  split; [intros [|[|i]] Hi; try lia; split; reflexivity|].
  split; [intros [|[|i]] [|[|j]] Hi Hj; try lia; unfold mmul, mid; cbn; ring|].
  intros eigpos inv Cp Cq Ei. unfold log_det_divergence, assert_positive_definite, check_positive, square. cbn [mrows mcols Nat.eqb negb].
  rewrite Cp, Cq, Ei. cbn [bind ent]. cbv zeta. unfold slogdet.
  assert (D : det 2 (mmul 2 (m2 1 2 0 1) (m2 1 0 (-2) 1)) = 1) by (unfold mmul, sumn, det; cbn; ring).
  rewrite D, Rabs_R1, nlog_fin, ln_1 by lra. rewrite !nsub_fin. do 2 f_equal. unfold trace, mmul, sumn. cbn. ring.
Qed.
Print Assumptions C46_nonneg_needs_symmetry.

Theorem C46_von_neumann_self : forall eigpos logm n p, eigpos (mkM n n p) = true ->
  von_neuman_divergence eigpos logm (mkM n n p) (mkM n n p) = Ok 0.
Proof.
  intros eigpos logm n p Cp. unfold von_neuman_divergence, assert_positive_definite, check_positive, square, compatible. cbn [mrows mcols]. rewrite !Nat.eqb_refl. cbn [negb orb bind]. rewrite Cp. cbn [bind].
  assert (H : Nat.eqb n 1 && negb (Nat.eqb n 1) = false) by (destruct (Nat.eqb n 1); reflexivity). rewrite H. cbv zeta. f_equal.
  assert (SP : forall a, meq n (spread (mkM n n p) a) a).
  { intros a i j Hi Hj. unfold spread. cbn [mrows]. destruct (Nat.eqb_spec n 1) as [->|]; [|reflexivity]. assert (i = 0%nat) by lia. assert (j = 0%nat) by lia. subst. reflexivity. }
  rewrite (trace_ext n _ (fun _ _ => 0)).
  - rewrite (trace_ext n (fun i j => - ent (mkM n n p) i j + spread (mkM n n p) (ent (mkM n n p)) i j) (fun _ _ => 0)); [unfold trace; rewrite S_zero; ring|].
    intros i j Hi Hj. rewrite SP by auto. ring.
  - intros i j Hi Hj. unfold mmul. rewrite (S_ext n _ (fun _ => 0)); [apply S_zero|]. intros k Hk. rewrite SP by auto. ring.
Qed.
Print Assumptions C46_von_neumann_self.

Lemma trace_spectral2 : forall n U V a b,
  trace n (mmul n (spectral n U a) (spectral n V b)) = sumn n (fun k => sumn n (fun l => a k * b l * (mmul n (mtr U) V k l * mmul n (mtr U) V k l))).
Proof.
  intros n U V a b. unfold trace, mmul, spectral, mtr.
  transitivity (sumn n (fun i => sumn n (fun j => sumn n (fun k => sumn n (fun l => (U i k * V i l) * (U j k * V j l) * (a k * b l)))))).
  - apply S_ext. intros i _. apply S_ext. intros j _. rewrite <- S_scal_r. apply S_ext. intros k _. rewrite <- S_scal. apply S_ext. intros l _. ring.
  - rewrite (S_ext n _ (fun i => sumn n (fun k => sumn n (fun l => sumn n (fun j => (U i k * V i l) * (U j k * V j l) * (a k * b l)))))).
    2:{ intros i _. rewrite S_swap. apply S_ext. intros k _. apply S_swap. }
    rewrite S_swap. apply S_ext. intros k _. rewrite S_swap. apply S_ext. intros l _.
    rewrite (S_ext n _ (fun i => (U i k * V i l) * (sumn n (fun j => U j k * V j l) * (a k * b l)))).
    2:{ intros i _. rewrite <- S_scal_r, <- S_scal. apply S_ext. intros j _. ring. }
    rewrite S_scal_r. ring.
Qed.
(** the squared overlaps of two orthonormal bases sum to one in both directions *)
Lemma overlaps : forall n U V, orthogonal n U -> orthogonal n V -> forall k, (k < n)%nat ->
  sumn n (fun l => mmul n (mtr U) V k l * mmul n (mtr U) V k l) = 1 /\ sumn n (fun l => mmul n (mtr U) V l k * mmul n (mtr U) V l k) = 1.
Proof.
  intros n U V [HU HU'] [HV HV'] k Hk. set (W := mmul n (mtr U) V). split.
  - transitivity (mmul n W (mtr W) k k); [reflexivity|].
    assert (E : meq n (mmul n W (mtr W)) mid).
    { intros i j Hi Hj. assert (T : meq n (mtr W) (mmul n (mtr V) U)) by (intros x y _ _; unfold W; rewrite mtr_mmul; reflexivity).
      rewrite (mmul_ext n W W _ _ (meq_refl n W) T i j Hi Hj). unfold W. rewrite mmul_assoc.
      assert (T2 : meq n (mmul n V (mmul n (mtr V) U)) U).
      { intros x y Hx Hy. rewrite <- mmul_assoc. rewrite (mmul_ext n _ mid U U HV' (meq_refl n U) x y Hx Hy). apply mmul_id_l; auto. }
      rewrite (mmul_ext n _ _ _ _ (meq_refl n (mtr U)) T2 i j Hi Hj). apply HU; auto. }
    rewrite E by auto. unfold mid. rewrite Nat.eqb_refl. reflexivity.
  - transitivity (mmul n (mtr W) W k k); [reflexivity|].
    assert (E : meq n (mmul n (mtr W) W) mid).
    { intros i j Hi Hj. assert (T : meq n (mtr W) (mmul n (mtr V) U)) by (intros x y _ _; unfold W; rewrite mtr_mmul; reflexivity).
      rewrite (mmul_ext n _ _ W W T (meq_refl n W) i j Hi Hj). unfold W. rewrite mmul_assoc.
      assert (T2 : meq n (mmul n U (mmul n (mtr U) V)) V).
      { intros x y Hx Hy. rewrite <- mmul_assoc. rewrite (mmul_ext n _ mid V V HU' (meq_refl n V) x y Hx Hy). apply mmul_id_l; auto. }
      rewrite (mmul_ext n _ _ _ _ (meq_refl n (mtr V)) T2 i j Hi Hj). apply HV; auto. }
    rewrite E by auto. unfold mid. rewrite Nat.eqb_refl. reflexivity.
Qed.

(** the divergence as a sum over pairs of eigenvectors, weighted by their squared overlaps *)
Definition overlap (n : nat) (U V : mat) (k l : nat) : R := mmul n (mtr U) V k l * mmul n (mtr U) V k l.
Lemma von_neumann_sum : forall eigpos logm n U V a b, orthogonal n U -> orthogonal n V ->
  let p := mkM n n (spectral n U a) in let q := mkM n n (spectral n V b) in
  eigpos p = true -> eigpos q = true ->
  meq n (logm p) (spectral n U (fun k => ln (a k))) -> meq n (logm q) (spectral n V (fun k => ln (b k))) ->
  von_neuman_divergence eigpos logm p q = Ok (sumn n (fun k => sumn n (fun l => overlap n U V k l * (a k * ln (a k) - a k * ln (b l) - a k + b l)))).
Proof.
  intros eigpos logm n U V a b HU HV p q Cp Cq Lp Lq. unfold von_neuman_divergence, assert_positive_definite, check_positive, square, compatible. change (mrows p) with n; change (mcols p) with n; change (mrows q) with n; change (mcols q) with n.
  rewrite !Nat.eqb_refl. cbn [negb orb bind]. rewrite Cp, Cq. cbn [bind].
  assert (H : Nat.eqb n 1 && negb (Nat.eqb n 1) = false) by (destruct (Nat.eqb n 1); reflexivity). rewrite H. cbv zeta. f_equal.
  assert (SP : forall c, meq n (spread q c) c).
  { intros c i j Hi Hj. unfold spread, q. cbn [mrows]. destruct (Nat.eqb_spec n 1) as [E|]; [|reflexivity]. assert (i = 0%nat) by lia. assert (j = 0%nat) by lia. subst i j. reflexivity. }
  rewrite (trace_ext n _ (fun i j => mmul n (spectral n U a) (spectral n U (fun k => ln (a k))) i j - mmul n (spectral n U a) (spectral n V (fun k => ln (b k))) i j)).
  2:{ intros i j Hi Hj. unfold mmul. rewrite <- S_minus. apply S_ext. intros k Hk. rewrite SP, Lp, Lq by auto. unfold p. cbn [ent]. ring. }
  change (ent p) with (spectral n U a); change (ent q) with (spectral n V b).
  rewrite (trace_ext n (fun i j => - spectral n U a i j + spread q (spectral n V b) i j) (fun i j => - spectral n U a i j + spectral n V b i j)) by (intros i j Hi Hj; rewrite SP by auto; reflexivity).
  assert (TM : forall A B, trace n (fun i j => A i j - B i j) = trace n A - trace n B) by (intros; unfold trace; apply S_minus).
  assert (TA : forall A B, trace n (fun i j => - A i j + B i j) = - trace n A + trace n B) by (intros; unfold trace; rewrite S_plus, S_opp; reflexivity).
  rewrite TM, TA, !trace_spectral by auto. rewrite !trace_spectral2.
  set (w := fun k l => mmul n (mtr U) V k l * mmul n (mtr U) V k l).
  assert (W1 : forall k, (k < n)%nat -> sumn n (w k) = 1 /\ sumn n (fun l => w l k) = 1) by (intros; apply overlaps; auto).
  assert (S1 : sumn n (fun k => sumn n (fun l => a k * ln (a l) * (mmul n (mtr U) U k l * mmul n (mtr U) U k l))) = sumn n (fun k => sumn n (fun l => w k l * (a k * ln (a k))))).
  { apply S_ext. intros k Hk. rewrite S_scal_r, (proj1 (W1 k Hk)), Rmult_1_l. rewrite (S_single n _ k Hk).
    - rewrite (proj1 HU k k Hk Hk). unfold mid. rewrite Nat.eqb_refl. ring.
    - intros l Hl Hne. rewrite (proj1 HU k l Hk Hl). unfold mid. rewrite (proj2 (Nat.eqb_neq k l)) by auto. ring. }
  assert (S2 : sumn n a = sumn n (fun k => sumn n (fun l => w k l * a k))) by (apply S_ext; intros k Hk; rewrite S_scal_r, (proj1 (W1 k Hk)); ring).
  assert (S3 : sumn n b = sumn n (fun k => sumn n (fun l => w k l * b l))).
  { rewrite S_swap. apply S_ext. intros l Hl. rewrite S_scal_r, (proj2 (W1 l Hl)). ring. }
  rewrite S1, S2, S3. fold (sumn n (fun k => sumn n (fun l => a k * ln (b l) * w k l))).
  change (overlap n U V) with w. symmetry.
  rewrite (S_ext n _ (fun k => sumn n (fun l => w k l * (a k * ln (a k))) - sumn n (fun l => a k * ln (b l) * (mmul n (mtr U) V k l * mmul n (mtr U) V k l)) + (- sumn n (fun l => w k l * a k) + sumn n (fun l => w k l * b l)))).
  - rewrite S_plus, S_minus, S_plus, S_opp. reflexivity.
  - intros k _. rewrite <- S_minus, <- S_opp, <- !S_plus. apply S_ext. intros l _. unfold w. ring.
Qed.
(** Klein's inequality: the von Neumann divergence of positive definite matrices is non-negative, and zero only for equal matrices, when
    logm computes the matrix logarithm (same eigenvectors, logarithms of the eigenvalues). *)
Lemma klein_term : forall x y, 0 < x -> 0 < y -> 0 <= x * ln x - x * ln y - x + y /\ (x * ln x - x * ln y - x + y = 0 -> x = y).
Proof.
  intros x y Hx Hy. assert (P : 0 < y / x) by (apply Rmult_lt_0_compat; [auto|apply Rinv_0_lt_compat; auto]).
  assert (E : x * ln x - x * ln y - x + y = x * (y / x - 1 - ln (y / x))).
  { unfold Rdiv. rewrite ln_mult, ln_Rinv by (auto; apply Rinv_0_lt_compat; auto). field. lra. }
  rewrite E. split.
  - apply Rmult_le_pos; [lra|]. pose proof (ln_le_sub1' (y / x) P). lra.
  - intros Z. destruct (Req_dec (y / x) 1) as [E1|N1].
    + apply Rmult_eq_reg_r with (/ x); [|apply Rinv_neq_0_compat; lra]. rewrite Rinv_r by lra. symmetry. exact E1.
    + pose proof (ln_lt_sub1 (y / x) P N1). apply Rmult_integral in Z. lra.
Qed.
Lemma S_zero_term : forall n f, (forall i, (i < n)%nat -> 0 <= f i) -> sumn n f = 0 -> forall i, (i < n)%nat -> f i = 0.
Proof. intros n f Hf Z i Hi. pose proof (S_ge_term n f i Hi Hf). specialize (Hf i Hi). lra. Qed.
Theorem C46_von_neumann_nonneg : forall eigpos logm n U V a b, orthogonal n U -> orthogonal n V ->
  (forall k, (k < n)%nat -> 0 < a k /\ 0 < b k) ->
  let p := mkM n n (spectral n U a) in let q := mkM n n (spectral n V b) in
  eigpos p = true -> eigpos q = true ->
  meq n (logm p) (spectral n U (fun k => ln (a k))) -> meq n (logm q) (spectral n V (fun k => ln (b k))) ->
  exists d, von_neuman_divergence eigpos logm p q = Ok d /\ 0 <= d /\ (d = 0 <-> meq n (ent p) (ent q)).
Proof.
  intros eigpos logm n U V a b HU HV Pos p q Cp Cq Lp Lq. eexists. split; [apply von_neumann_sum; auto|].
  assert (T : forall k l, (k < n)%nat -> (l < n)%nat -> 0 <= overlap n U V k l * (a k * ln (a k) - a k * ln (b l) - a k + b l)).
  { intros k l Hk Hl. apply Rmult_le_pos; [unfold overlap; nra|]. apply klein_term; [apply (Pos k Hk)|apply (Pos l Hl)]. }
  split; [apply S_nonneg; intros k Hk; apply S_nonneg; intros l Hl; apply T; auto|].
  assert (PU : forall k l, (k < n)%nat -> (l < n)%nat -> mmul n (mtr U) (mmul n (spectral n U a) V) k l = a k * mmul n (mtr U) V k l).
  { intros k l Hk Hl. rewrite <- mmul_assoc. unfold mmul at 1 3. rewrite <- S_scal. apply S_ext. intros y Hy. rewrite <- Rmult_assoc. f_equal. unfold mmul, mtr, spectral.
    rewrite (S_ext n _ (fun x => sumn n (fun m => U x k * U x m * (a m * U y m)))) by (intros; rewrite <- S_scal; apply S_ext; intros; ring). rewrite S_swap.
    rewrite (S_single n _ k Hk).
    - rewrite S_scal_r. pose proof (proj1 HU k k Hk Hk) as E. unfold mmul, mtr, mid in E. rewrite Nat.eqb_refl in E. rewrite E. ring.
    - intros m Hm Hne. rewrite S_scal_r. pose proof (proj1 HU k m Hk Hm) as E. unfold mmul, mtr, mid in E. rewrite (proj2 (Nat.eqb_neq k m)) in E by auto. rewrite E. ring. }
  assert (QV : forall k l, (k < n)%nat -> (l < n)%nat -> mmul n (mtr U) (mmul n (spectral n V b) V) k l = mmul n (mtr U) V k l * b l).
  { intros k l Hk Hl. unfold mmul at 1 3. rewrite <- S_scal_r. apply S_ext. intros x Hx. rewrite Rmult_assoc. f_equal. unfold mmul, spectral.
    rewrite (S_ext n _ (fun y => sumn n (fun m => V x m * b m * (V y m * V y l)))) by (intros; rewrite <- S_scal_r; apply S_ext; intros; ring). rewrite S_swap.
    rewrite (S_single n _ l Hl).
    - rewrite S_scal. pose proof (proj1 HV l l Hl Hl) as E. unfold mmul, mtr, mid in E. rewrite Nat.eqb_refl in E. rewrite E. ring.
    - intros m Hm Hne. rewrite S_scal. pose proof (proj1 HV m l Hm Hl) as E. unfold mmul, mtr, mid in E. rewrite (proj2 (Nat.eqb_neq m l)) in E by auto. rewrite E. ring. }
  split.
  2:{ intros E. rewrite (S_ext n _ (fun _ => 0)); [apply S_zero|]. intros k Hk. rewrite (S_ext n _ (fun _ => 0)); [apply S_zero|]. intros l Hl.
      assert (W : a k * mmul n (mtr U) V k l = mmul n (mtr U) V k l * b l).
      { rewrite <- PU, <- QV by auto. unfold mmul. apply S_ext. intros x Hx. f_equal. apply S_ext. intros y Hy. f_equal. apply E; auto. }
      unfold overlap. destruct (Req_dec (mmul n (mtr U) V k l) 0) as [Z0|Z0]; [rewrite Z0; ring|].
      assert (Eab : a k = b l) by (apply Rmult_eq_reg_r with (mmul n (mtr U) V k l); lra). rewrite Eab. ring. }
  intros Z. assert (W : forall k l, (k < n)%nat -> (l < n)%nat -> mmul n (mtr U) V k l * a k = mmul n (mtr U) V k l * b l).
  { intros k l Hk Hl. assert (Z1 : overlap n U V k l * (a k * ln (a k) - a k * ln (b l) - a k + b l) = 0).
    { apply (S_zero_term n (fun l => overlap n U V k l * (a k * ln (a k) - a k * ln (b l) - a k + b l))); auto.
      apply (S_zero_term n (fun k => sumn n (fun l => overlap n U V k l * (a k * ln (a k) - a k * ln (b l) - a k + b l)))); auto. intros; apply S_nonneg; auto. }
    apply Rmult_integral in Z1. destruct Z1 as [Z1|Z1].
    - unfold overlap in Z1. apply Rmult_integral in Z1. destruct Z1 as [-> | ->]; ring.
    - rewrite (proj2 (klein_term (a k) (b l) (proj1 (Pos k Hk)) (proj2 (Pos l Hl))) Z1). reflexivity. }
  unfold p, q. cbn [ent]. intros i j Hi Hj. destruct HU as [HU HU']. destruct HV as [HV HV'].
  (* p = p V V' = V b V' = q *)
  assert (PV : forall x l, (x < n)%nat -> (l < n)%nat -> sumn n (fun y => spectral n U a x y * V y l) = V x l * b l).
  { intros x l Hx Hl. transitivity (sumn n (fun k => U x k * (mmul n (mtr U) V k l * b l))).
    - unfold spectral. rewrite (S_ext n _ (fun y => sumn n (fun k => U x k * a k * U y k * V y l))) by (intros; rewrite <- S_scal_r; reflexivity).
      rewrite S_swap. apply S_ext. intros k Hk. rewrite <- W by auto. unfold mmul, mtr. rewrite <- S_scal_r, <- S_scal. apply S_ext. intros y _. ring.
    - assert (E : mmul n U (mmul n (mtr U) V) x l = V x l).
      { rewrite <- mmul_assoc. rewrite (mmul_ext n _ mid V V HU' (meq_refl n V) x l Hx Hl). apply mmul_id_l; auto. }
      rewrite <- E. unfold mmul at 2. rewrite <- S_scal_r. apply S_ext. intros k _. ring. }
  transitivity (sumn n (fun y => spectral n U a i y * mmul n V (mtr V) y j)).
  - rewrite (S_single n _ j Hj).
    + rewrite HV' by auto. unfold mid. rewrite Nat.eqb_refl. ring.
    + intros y Hy Hne. rewrite HV' by auto. unfold mid. rewrite (proj2 (Nat.eqb_neq y j)) by auto. ring.
  - unfold mmul, mtr. rewrite (S_ext n _ (fun y => sumn n (fun l => spectral n U a i y * V y l * V j l))) by (intros; rewrite <- S_scal; apply S_ext; intros; ring).
    rewrite S_swap. unfold spectral at 2. apply S_ext. intros l Hl. rewrite S_scal_r, PV by auto. ring.
Qed.
Print Assumptions C46_von_neumann_nonneg.

(** rejected arguments *)
Theorem C46_rejects : forall eigpos inv logm p q,
  (mrows p <> mcols p -> log_det_divergence eigpos inv p q = Raise LinAlgError /\ von_neuman_divergence eigpos logm p q = Raise LinAlgError)
  /\ (mrows p = mcols p -> eigpos p = false -> log_det_divergence eigpos inv p q = Raise AssertionError /\ von_neuman_divergence eigpos logm p q = Raise AssertionError)
  /\ (mrows p = mcols p -> eigpos p = true -> mrows q = mcols q -> eigpos q = false ->
        log_det_divergence eigpos inv p q = Raise AssertionError /\ von_neuman_divergence eigpos logm p q = Raise AssertionError)
  /\ (mrows p = mcols p -> eigpos p = true -> mrows q = mcols q -> eigpos q = true -> mrows p <> mrows q ->
        (forall Q, inv q = Ok Q -> log_det_divergence eigpos inv p q = Raise ValueError)
        /\ (mrows q <> 1%nat -> von_neuman_divergence eigpos logm p q = Raise ValueError)
        /\ (mrows q = 1%nat -> exists d, von_neuman_divergence eigpos logm p q = Ok d)).
Proof.
  intros eigpos inv logm p q. unfold log_det_divergence, von_neuman_divergence, assert_positive_definite, check_positive, square, compatible.
  split; [intros H; rewrite (proj2 (Nat.eqb_neq _ _) H); split; reflexivity|].
  split; [intros Hp Cp; rewrite (proj2 (Nat.eqb_eq _ _) Hp), Cp; split; reflexivity|].
  split; [intros Hp Cp Hq Cq; rewrite (proj2 (Nat.eqb_eq _ _) Hp), (proj2 (Nat.eqb_eq _ _) Hq), Cp, Cq; split; reflexivity|].
  intros Hp Cp Hq Cq Hne. rewrite (proj2 (Nat.eqb_eq _ _) Hp), (proj2 (Nat.eqb_eq _ _) Hq), Cp, Cq. cbn [negb bind]. split; [|split].
  - intros Q ->. cbn [bind]. rewrite <- Hp. rewrite (proj2 (Nat.eqb_neq _ _) Hne). reflexivity.
  - intros H1. rewrite (proj2 (Nat.eqb_neq _ _) Hne), (proj2 (Nat.eqb_neq _ _) H1). cbn [orb negb andb]. destruct (Nat.eqb (mrows p) 1); reflexivity.
  - intros H1. rewrite H1 in *. rewrite (proj2 (Nat.eqb_neq _ _) Hne). cbn. eexists. reflexivity.
Qed.
Print Assumptions C46_rejects.

(** the hypotheses are met by 2 [[2,1],[1,2]] and the identity *)
Example C46_example : posdef 2 (m2 2 1 1 2) /\ posdef 2 mid /\ inverse 2 mid mid /\ orthogonal 2 mid
  /\ exists d, log_det_divergence (fun _ => true) (fun _ => Ok mid) (mkM 2 2 (m2 2 1 1 2)) (mkM 2 2 mid) = Ok (Fin d) /\ 0 < d.
Proof.
  assert (P1 : posdef 2 (m2 2 1 1 2)).
  { split; [intros [|[|i]] [|[|j]] Hi Hj; try lia; reflexivity|]. intros x (i & Hi & Hne). unfold quad, sumn. cbn. destruct i as [|[|i]]; [| |lia].
    - assert (0 < x 0%nat * x 0%nat) by (apply Rsqr_pos_lt; auto). nra.
    - assert (0 < x 1%nat * x 1%nat) by (apply Rsqr_pos_lt; auto). nra. }
  assert (P2 : posdef 2 mid).
  { split; [intros [|[|i]] [|[|j]] Hi Hj; try lia; reflexivity|]. intros x (i & Hi & Hne). unfold quad, sumn, mid. cbn. destruct i as [|[|i]]; [| |lia].
    - assert (0 < x 0%nat * x 0%nat) by (apply Rsqr_pos_lt; auto). nra.
    - assert (0 < x 1%nat * x 1%nat) by (apply Rsqr_pos_lt; auto). nra. }
  assert (P3 : inverse 2 mid mid) by (apply mmul_id_l).
  split; [auto|]. split; [auto|]. split; [auto|]. split.
  { split; intros i j Hi Hj; rewrite (mmul_ext 2 _ mid _ mid); auto using mmul_id_l; intros k l _ _; unfold mtr, mid; try rewrite Nat.eqb_sym; reflexivity. }
  destruct (C46_log_det_nonneg (fun _ => true) (fun _ => Ok mid) 2 (m2 2 1 1 2) mid mid P1 P2 eq_refl eq_refl eq_refl P3) as (d & E & D0 & DZ). exists d. split; [exact E|].
  destruct D0 as [|D0]; [auto|]. exfalso. symmetry in D0. apply DZ in D0. specialize (D0 0%nat 1%nat ltac:(lia) ltac:(lia)). unfold mid, m2 in D0. cbn in D0. lra.
Qed.
