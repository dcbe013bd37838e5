(** Lemmas about TimeAwareKFold. *)
From Coq Require Import List ZArith Bool Arith Lia Sorted ZifyBool.
From Verif Require Import Base Split_Model Split_Proofs.
Import ListNotations.
Open Scope Z_scope.

(** chain of non-empty blocks from p to q *)
Fixpoint adj (p : nat) (bs : list (nat * nat)) (q : nat) : Prop :=
  match bs with
  | [] => p = q
  | (a, b) :: t => a = p /\ (p <= b)%nat /\ adj (S b) t q
  end.

(** chain of possibly empty blocks *)
Fixpoint adj0 (p : nat) (bs : list (nat * nat)) (q : nat) : Prop :=
  match bs with
  | [] => p = q
  | (a, b) :: t => a = p /\ (p <= S b)%nat /\ adj0 (S b) t q
  end.

Lemma adj_le : forall bs p q, adj p bs q -> (p <= q)%nat.
Proof. induction bs as [|[a b] t IH]; simpl; intros p q H; [lia|]. destruct H as [-> [H1 H2]].
  apply IH in H2; lia. Qed.
Lemma adj0_le : forall bs p q, adj0 p bs q -> (p <= q)%nat.
Proof. induction bs as [|[a b] t IH]; simpl; intros p q H; [lia|]. destruct H as [-> [H1 H2]].
  apply IH in H2; lia. Qed.

Lemma rev_seq_S : forall a n, rev (seq a (S n)) = (a + n)%nat :: rev (seq a n).
Proof. intros. rewrite seq_S, rev_app_distr. reflexivity. Qed.

Lemma fold_bound_seq : forall a s, fold_bound (seq a (S s)) = Ok (a, (a + s)%nat).
Proof.
  intros. unfold fold_bound. pose proof (rev_seq_S a s) as E. cbn [seq] in *. rewrite E. reflexivity.
Qed.

Lemma firstn_seq : forall n k a, (k <= n)%nat -> firstn k (seq a n) = seq a k.
Proof. induction n; intros k a H; destruct k; simpl; auto; try lia. f_equal; apply IHn; lia. Qed.
Lemma skipn_seq : forall n k a, (k <= n)%nat -> skipn k (seq a n) = seq (a + k) (n - k).
Proof. induction n; intros k a H; destruct k; simpl; auto; try lia.
  - rewrite Nat.add_0_r; auto.
  - rewrite IHn by lia. f_equal; lia. Qed.

Definition sum_nat (l : list nat) : nat := fold_right Nat.add 0%nat l.

(** the bounds of chopped [seq] *)
Fixpoint blocks (p : nat) (sizes : list nat) : list (nat * nat) :=
  match sizes with
  | [] => []
  | s :: ss => (p, (p + s - 1)%nat) :: blocks (p + s) ss
  end.

Lemma chop_bounds : forall sizes p len,
  sum_nat sizes = len -> Forall (fun s => (1 <= s)%nat) sizes ->
  mapM fold_bound (chop sizes (seq p len)) = Ok (blocks p sizes) /\
  chop sizes (seq p len) = map bound_range (blocks p sizes) /\
  adj p (blocks p sizes) (p + len) /\ length (blocks p sizes) = length sizes.
Proof.
  induction sizes as [|s ss IH]; simpl; intros p len Hs Hf.
  - subst; simpl. repeat split; auto; lia.
  - inversion Hf as [|? ? H1 H2]; subst. set (len := (s + sum_nat ss)%nat).
    change (fold_right Nat.add 0%nat ss) with (sum_nat ss).
    rewrite firstn_seq, skipn_seq by (unfold len; lia).
    replace (len - s)%nat with (sum_nat ss) by (unfold len; lia).
    destruct (IH (p + s)%nat (sum_nat ss) eq_refl H2) as [I1 [I2 [I3 I4]]].
    rewrite I1, I2. destruct s as [|s]; [lia|].
    rewrite fold_bound_seq. simpl.
    replace (p + S s - 1)%nat with (p + s)%nat by lia.
    repeat split; auto.
    + f_equal. change (p :: seq (S p) s) with (seq p (S s)). unfold bound_range; cbn [fst snd]. f_equal. lia.
    + lia.
    + replace (S (p + s)) with (p + S s)%nat by lia.
      replace (p + len)%nat with (p + S s + sum_nat ss)%nat by (unfold len; lia). auto.
Qed.

Lemma sum_repeat : forall a n, sum_nat (repeat a n) = (a * n)%nat.
Proof. induction n; simpl; [lia|]. rewrite IHn. lia. Qed.
Lemma sum_app : forall a b, sum_nat (a ++ b) = (sum_nat a + sum_nat b)%nat.
Proof. induction a; simpl; intros; auto. rewrite IHa. lia. Qed.

Definition split_sizes (n k : nat) : list nat := repeat (S (n / k)) (n mod k) ++ repeat (n / k)%nat (k - n mod k).

Lemma split_sizes_ok : forall n k, (1 <= k <= n)%nat ->
  sum_nat (split_sizes n k) = n /\ Forall (fun s => (1 <= s)%nat) (split_sizes n k) /\ length (split_sizes n k) = k.
Proof.
  intros n k H. unfold split_sizes.
  assert (Hq : (1 <= n / k)%nat) by (apply Nat.div_le_lower_bound; lia).
  assert (Hr : (n mod k < k)%nat) by (apply Nat.mod_upper_bound; lia).
  assert (He := Nat.div_mod n k ltac:(lia)).
  rewrite sum_app, !sum_repeat, app_length, !repeat_length. repeat split.
  - nia.
  - apply Forall_app; split; apply Forall_forall; intros x Hx; apply repeat_spec in Hx; lia.
  - lia.
Qed.

Lemma array_split_bounds : forall n k, (1 <= k <= n)%nat ->
  exists bs, mapM fold_bound (array_split (seq 0 n) k) = Ok bs /\ bs = blocks 0 (split_sizes n k) /\
  array_split (seq 0 n) k = map bound_range bs /\ adj 0 bs n /\ length bs = k.
Proof.
  intros n k H. destruct (split_sizes_ok n k H) as [H1 [H2 H3]].
  destruct (chop_bounds _ 0%nat n H1 H2) as [I1 [I2 [I3 I4]]].
  unfold array_split. rewrite seq_length. fold (split_sizes n k).
  eexists; repeat split; eauto; congruence.
Qed.

(** a position where a new group starts (or either end) *)
Definition aligned (g : groups) (p : nat) : Prop :=
  p = 0%nat \/ (length (g_val g) <= p)%nat \/ gat g (p - 1) < gat g p.

Lemma In_where_eq : forall g v i, In i (where_eq g v) <-> (i < length (g_val g))%nat /\ gat g i = v.
Proof.
  intros. unfold where_eq. rewrite (mask_aux (fun x => x =? v)). rewrite filter_In, in_seq, Nat.sub_0_r.
  fold (gat g i). lia.
Qed.

Lemma where_eq_sorted : forall g v, StronglySorted lt (where_eq g v).
Proof. intros. unfold where_eq. rewrite (mask_aux (fun x => x =? v)). apply filter_sorted, seq_sorted. Qed.

Lemma sorted_first : forall a l, StronglySorted lt (a :: l) -> forall x, In x (a :: l) -> (a <= x)%nat.
Proof. intros a l H x [<-|Hx]; auto. apply StronglySorted_inv in H as [_ H]. rewrite Forall_forall in H.
  specialize (H _ Hx); lia. Qed.

Lemma sorted_app_inv : forall (l1 l2 : list nat), StronglySorted lt (l1 ++ l2) ->
  forall x y, In x l1 -> In y l2 -> (x < y)%nat.
Proof.
  induction l1 as [|a l1 IH]; simpl; intros l2 H x y Hx Hy; [tauto|].
  apply StronglySorted_inv in H as [H1 H2]. destruct Hx as [<-|Hx]; eauto.
  rewrite Forall_forall in H2. apply H2, in_or_app; auto.
Qed.

Lemma sorted_last : forall l a t, StronglySorted lt l -> rev l = a :: t -> forall x, In x l -> (x <= a)%nat.
Proof.
  intros l a t H E x Hx. assert (El : l = rev t ++ [a]).
  { rewrite <- (rev_involutive l), E. reflexivity. }
  rewrite El in *. apply in_app_or in Hx as [Hx|[<-|[]]]; auto.
  assert (x < a)%nat; [|lia]. eapply sorted_app_inv; eauto. simpl; auto.
Qed.

Lemma first_where : forall g v i t, where_eq g v = i :: t ->
  (i < length (g_val g))%nat /\ gat g i = v /\ forall j, (j < length (g_val g))%nat -> gat g j = v -> (i <= j)%nat.
Proof.
  intros g v i t E. assert (Hi : In i (where_eq g v)) by (rewrite E; simpl; auto).
  apply In_where_eq in Hi as [H1 H2]. repeat split; auto. intros j Hj Hv.
  apply (sorted_first i t). { rewrite <- E; apply where_eq_sorted. }
  rewrite <- E. apply In_where_eq; auto.
Qed.

Lemma last_where : forall g v i t, rev (where_eq g v) = i :: t ->
  (i < length (g_val g))%nat /\ gat g i = v /\ forall j, (j < length (g_val g))%nat -> gat g j = v -> (j <= i)%nat.
Proof.
  intros g v i t E. assert (Hi : In i (where_eq g v)) by (rewrite in_rev, E; simpl; auto).
  apply In_where_eq in Hi as [H1 H2]. repeat split; auto. intros j Hj Hv.
  eapply sorted_last; eauto using where_eq_sorted. apply In_where_eq; auto.
Qed.

Lemma next_group_spec : forall g v w, nondecr (g_val g) -> next_group g v = Ok w ->
  v < w /\ (exists i, (i < length (g_val g))%nat /\ gat g i = w) /\
  (forall j, (j < length (g_val g))%nat -> v < gat g j -> w <= gat g j).
Proof.
  unfold next_group; intros g v w Hs H. destruct (is_series (g_kind g)).
  - destruct (g_val g) as [|v0 l] eqn:E; [discriminate|].
    destruct (v0 >? v) eqn:E1; [|discriminate]. injection H as <-.
    split; [lia|]. split; [exists 0%nat; unfold gat; rewrite E; simpl; split; [lia|auto]|].
    intros j Hj _. unfold gat. rewrite E. specialize (Hs 0%nat j). simpl in *. apply Hs; lia.
  - destruct (filter (fun x => x >? v) (g_val g)) as [|x f] eqn:E; [discriminate|]. injection H as <-.
    assert (Hx : In x (filter (fun x => x >? v) (g_val g))) by (rewrite E; simpl; auto).
    apply filter_In in Hx as [Hx1 Hx2]. split; [lia|].
    assert (HG : forall l, nondecr l -> forall x f, filter (fun x => x >? v) l = x :: f ->
               forall y, In y l -> v < y -> x <= y).
    { clear. induction l as [|a l IH]; simpl; intros Hs x f E y Hy Hv; [tauto|].
      assert (Hs' : nondecr l).
      { intros i j Hij Hj. apply (Hs (S i) (S j)); simpl; lia. }
      destruct (a >? v) eqn:Ea.
      - injection E as -> E. destruct Hy as [<-|Hy]; [lia|].
        apply (In_nth _ _ 0) in Hy as [j [Hj <-]]. apply (Hs 0%nat (S j)); simpl; lia.
      - destruct Hy as [<-|Hy]; [lia|]. eapply IH; eauto. }
    apply (In_nth _ _ 0) in Hx1 as [i [Hi Ei]]. split; [exists i; unfold gat; auto|].
    intros j Hj Hv. eapply HG; eauto. apply nth_In; auto.
Qed.

(** main invariant of _modify_fold_bounds *)
Lemma modify_inv : forall g n, nondecr (g_val g) -> length (g_val g) = n ->
  forall rest a b bs,
  adj (S b) rest n -> aligned g a -> (a < n)%nat -> (b < n)%nat ->
  ((a <= S b)%nat \/ (b < a)%nat /\ gat g b = gat g (a - 1)) ->
  modify_fold_bounds g (a, b) rest = Ok bs ->
  adj0 a bs n /\ length bs = S (length rest) /\
  Forall (fun ab => aligned g (fst ab) /\ (fst ab < n)%nat) bs.
Proof.
  intros g n Hs Hn. induction rest as [|[c d] rest IH]; simpl; intros a b bs Hadj Hal Han Hbn Hab H.
  - injection H as <-. simpl. subst n. repeat split; auto; lia.
  - destruct Hadj as [-> [Hd Hadj]].
    apply bind_ok in H as [lg [H1 H]]. apply getitem_ok in H1 as [_ ->].
    apply bind_ok in H as [fg [H1 H]]. apply getitem_ok in H1 as [Hb1 ->].
    assert (Hle := adj_le _ _ _ Hadj).
    destruct (Z.eqb_spec (gat g b) (gat g (S b))) as [E|E].
    + apply bind_ok in H as [ng [Hng H]]. apply next_group_spec in Hng as [N1 [[ni [N2 N2']] N3]]; auto.
      apply bind_ok in H as [e [He H]]. destruct (rev (where_eq g (gat g b))) as [|e' te] eqn:Ee; [discriminate|].
      injection He as ->. apply last_where in Ee as [E1 [E2 E3]].
      apply bind_ok in H as [s [Hsx H]]. destruct (where_eq g ng) as [|s' ts] eqn:Es; [discriminate|].
      injection Hsx as ->. apply first_where in Es as [S1 [S2 S3]].
      apply bind_ok in H as [tl [Htl H]]. injection H as <-.
      assert (Hbe : (S b <= e)%nat) by (apply E3; [lia|congruence]).
      assert (Hes : s = S e).
      { assert (e < s)%nat.
        { destruct (Nat.lt_ge_cases e s); auto.
          assert (gat g s <= gat g e) by (apply Hs; lia). lia. }
        assert (s <= S e)%nat; [|lia].
        assert (HSe : (S e < length (g_val g))%nat) by lia.
        assert (gat g e <= gat g (S e)) by (apply Hs; lia).
        apply S3; auto.
        assert (gat g (S e) <= gat g s) by (apply Hs; lia).
        destruct (Z.eq_dec (gat g (S e)) (gat g b)) as [Ex|Ex].
        { apply E3 in Ex; lia. }
        specialize (N3 (S e) HSe ltac:(lia)). lia. }
      subst s.
      apply IH in Htl as [I1 [I2 I3]].
      * split; [|split; [simpl; congruence|constructor; auto]].
        simpl. split; [auto|]. split; [|auto].
        destruct Hab as [Hab|[Hab1 Hab2]]; [lia|].
        assert (a - 1 <= e)%nat by (apply E3; [lia|congruence]). lia.
      * auto.
      * right; right. replace (S e - 1)%nat with e by lia. lia.
      * lia.
      * lia.
      * destruct (Nat.le_gt_cases e d); [lia|]. right. split; [lia|].
        replace (S e - 1)%nat with e by lia.
        assert (gat g b <= gat g d) by (apply Hs; lia).
        assert (gat g d <= gat g e) by (apply Hs; lia). lia.
    + apply bind_ok in H as [tl [Htl H]]. injection H as <-.
      assert (Hlt : gat g b < gat g (S b)).
      { assert (gat g b <= gat g (S b)) by (apply Hs; lia). lia. }
      apply IH in Htl as [I1 [I2 I3]]; auto.
      * split; [|split; [simpl; congruence|constructor; auto]].
        simpl. split; [auto|]. split; [|auto].
        destruct Hab as [Hab|[Hab1 Hab2]]; [lia|].
        destruct (Nat.le_gt_cases a (S b)); [lia|].
        assert (gat g (S b) <= gat g (a - 1)) by (apply Hs; lia). lia.
      * right; right. replace (S b - 1)%nat with b by lia. lia.
      * lia.
Qed.

Lemma modify_all_inv : forall g n bs bs', nondecr (g_val g) -> length (g_val g) = n -> (0 < n)%nat ->
  adj 0 bs n -> modify_fold_bounds_all g bs = Ok bs' ->
  adj0 0 bs' n /\ length bs' = length bs /\ Forall (fun ab => aligned g (fst ab) /\ (fst ab < n)%nat) bs'.
Proof.
  intros g n bs bs' Hs Hn Hpos Hadj H. destruct bs as [|[a b] rest]; simpl in *.
  - lia.
  - destruct Hadj as [-> [Hb Hadj]]. assert (Hle := adj_le _ _ _ Hadj).
    apply (modify_inv g n Hs Hn rest 0%nat b); auto; try lia. left; auto.
Qed.

Lemma bound_ranges_concat : forall bs p q, adj0 p bs q -> concat (map bound_range bs) = seq p (q - p).
Proof.
  induction bs as [|[a b] t IH]; simpl; intros p q H.
  - subst; rewrite Nat.sub_diag; auto.
  - destruct H as [-> [H1 H2]]. assert (Hle := adj0_le _ _ _ H2). rewrite (IH _ _ H2).
    unfold bound_range; cbn [fst snd].
    replace (q - p)%nat with ((S b - p) + (q - S b))%nat by lia.
    rewrite seq_app. replace (p + (S b - p))%nat with (S b) by lia. reflexivity.
Qed.

(** each fold: start and end positions aligned *)
Lemma adj0_folds : forall g n bs p, length (g_val g) = n ->
  adj0 p bs n -> Forall (fun ab => aligned g (fst ab) /\ (fst ab < n)%nat) bs ->
  forall t, In t (map bound_range bs) ->
  exists a len, t = seq a len /\ (a + len <= n)%nat /\ aligned g a /\ aligned g (a + len).
Proof.
  intros g n bs p Hn; revert p. induction bs as [|[a b] t IH]; simpl; intros p H Hf x Hx; [tauto|].
  destruct H as [-> [H1 H2]]. inversion Hf as [|? ? [F1 F2] F3]; subst. simpl in F1, F2.
  assert (Hle := adj0_le _ _ _ H2).
  destruct Hx as [<-|Hx]; [|eauto].
  exists p, (S b - p)%nat. unfold bound_range; cbn [fst snd].
  replace (p + (S b - p))%nat with (S b) by lia.
  repeat split; auto.
  destruct t as [|[a' b'] t'].
  - simpl in H2. right; left; lia.
  - simpl in H2. destruct H2 as [-> _]. inversion F3 as [|? ? [G1 _] _]; subst; auto.
Qed.

(** an aligned non-empty block separates the groups *)
Lemma block_separates : forall g n a len, nondecr (g_val g) -> length (g_val g) = n ->
  (a + len <= n)%nat -> aligned g a -> aligned g (a + len) ->
  forall i, (i < n)%nat -> ~ In i (seq a len) ->
  ((i < a)%nat /\ forall j, In j (seq a len) -> gat g i < gat g j) \/
  ((a + len <= i)%nat /\ forall j, In j (seq a len) -> gat g j < gat g i).
Proof.
  intros g n a len Hs Hn Hle A1 A2 i Hi Hni. rewrite in_seq in Hni.
  destruct (Nat.lt_ge_cases i a) as [Hia|Hia].
  - left; split; auto. intros j Hj; apply in_seq in Hj.
    destruct A1 as [->|[A1|A1]]; [lia|lia|].
    assert (gat g i <= gat g (a - 1)) by (apply Hs; lia).
    assert (gat g a <= gat g j) by (apply Hs; lia). lia.
  - right; split; [lia|]. intros j Hj; apply in_seq in Hj.
    destruct A2 as [A2|[A2|A2]]; [lia|lia|].
    assert (gat g j <= gat g (a + len - 1)) by (apply Hs; lia).
    assert (gat g (a + len) <= gat g i) by (apply Hs; lia). lia.
Qed.

(** training set of one fold *)
Lemma get_train_ok : forall n test g look r,
  get_train_index_per_split (seq 0 n) test g look = Ok r ->
  forall i, In i r <-> (i < n)%nat /\ ~ In i test /\
    (look = true -> length (g_val g) = n -> exists t0, hd_error test = Some t0 /\ gat g i <= gat g t0).
Proof.
  unfold get_train_index_per_split; intros n test g look r H i.
  destruct look.
  - destruct test as [|t0 test]; [discriminate|].
    apply bind_ok in H as [g0 [H1 H]]. apply getitem_ok in H1 as [H1 ->].
    apply bind_ok in H as [later [H2 H]]. apply mask_select_seq in H2 as [Hn ->].
    injection H as <-. rewrite !In_setdiff1d, filter_In, in_seq.
    split.
    + intros [[A B] C]. repeat split; auto; try lia. intros _ _. exists t0; split; auto.
      destruct (Z.le_gt_cases (gat g i) (gat g t0)); auto. exfalso; apply C; split; [lia|]. lia.
    + intros [A [B C]]. destruct (C eq_refl Hn) as [t1 [E Ht]]. injection E as <-.
      repeat split; auto; try lia.
  - injection H as <-. rewrite In_setdiff1d, in_seq. intuition (try lia; try discriminate).
Qed.

Lemma kfold_train_ok : forall n test g look e p r a len,
  kfold_train (seq 0 n) test g look e p = Ok r ->
  test = seq a len -> (a + len <= n)%nat -> aligned g a -> aligned g (a + len) ->
  length (g_val g) = n /\ nondecr (g_val g) /\ 0 <= dval e /\ 0 <= dval p /\
  r <> [] /\ StronglySorted lt r /\
  (g_kind g = ArrInt -> test <> []) /\ (look = true -> test <> []) /\
  (test <> [] -> forall i, In i r <-> (i < n)%nat /\
     ((forall j, In j test -> gat g i + dval e < gat g j) \/
      (look = false /\ forall j, In j test -> gat g j + dval p < gat g i))) /\
  (test = [] -> forall i, In i r <-> (i < n)%nat).
Proof.
  intros n test g look e p r a len H Ht Hle A1 A2. unfold kfold_train in H.
  apply bind_ok in H as [tr [H1 H]]. apply bind_ok in H as [tr2 [H2 H3]].
  assert (Hlt : look = true -> test <> []).
  { intros ->. unfold get_train_index_per_split in H1. destruct test; [discriminate|congruence]. }
  assert (G := get_train_ok _ _ _ _ _ H1). clear H1.
  apply purge_ok in H2 as [P1 [P2 [P3 [_ [_ [P4 P5]]]]]].
  apply embargo_ok in H3 as [E1 [_ [_ [E2 [E3 [E4 E5]]]]]].
  assert (Sep := block_separates g n a len P2 P3 Hle A1 A2). rewrite <- Ht in Sep.
  split; [auto|]. split; [auto|]. split; [auto|]. split; [auto|]. split; [auto|]. split; [auto|].
  split. { intros Hk He. destruct (P5 He) as [Hc _]. contradiction. }
  split; [auto|].
  split.
  - intros Hne. destruct (P4 Hne) as [mx [[jx [X1 X2]] [X3 X4]]].
    destruct (E4 Hne) as [mn [[jn [N1 N2]] [N3 N4]]].
    intros i. rewrite N4, X4, G. split.
    + intros [[[Hi [Hni Hlk]] Hp] He]. split; auto.
      destruct (Sep i Hi Hni) as [[S0 S1]|[S0 S1]].
      * left. intros j Hj. specialize (S1 jn N1). specialize (N3 j Hj). lia.
      * destruct look.
        -- destruct (Hlk eq_refl P3) as [t0 [Et Hg]].
           assert (In t0 test). { destruct test; [discriminate|]. injection Et as ->; simpl; auto. }
           specialize (S1 t0 H). lia.
        -- right; split; auto. intros j Hj. specialize (S1 jx X1). specialize (X3 j Hj). lia.
    + intros [Hi [HL|[Hlk HR]]].
      * assert (Hlt2 := HL jn N1). assert (Hlt3 := HL jx X1).
        split; [split; [split; [auto|split]|lia]|lia].
        -- intros Hin. specialize (HL i Hin). lia.
        -- intros Hlk _. destruct test as [|t0 test]; [congruence|]. exists t0; split; auto.
           specialize (HL t0 (or_introl eq_refl)); lia.
      * assert (Hlt2 := HR jn N1). assert (Hlt3 := HR jx X1).
        split; [split; [split; [auto|split]|lia]|lia].
        -- intros Hin. specialize (HR i Hin). lia.
        -- congruence.
  - intros He i. destruct (E5 He) as [_ Q1]. destruct (P5 He) as [_ Q2]. rewrite Q1, Q2, G, He.
    split; [tauto|]. intros Hi. repeat split; auto. intros Hlk. destruct (Hlt Hlk He).
Qed.

Lemma kfold_loop_pairs : forall n g look e p tests tr te,
  In (tr, te) (yields (kfold_loop (seq 0 n) g look e p tests)) ->
  In te tests /\ kfold_train (seq 0 n) te g look e p = Ok tr.
Proof.
  induction tests as [|t ts IH]; simpl; intros tr te H; [tauto|].
  destruct (kfold_train (seq 0 n) t g look e p) eqn:E; simpl in H; [|tauto].
  destruct H as [H|H].
  - injection H as <- <-; auto.
  - apply IH in H as [H1 H2]; auto.
Qed.

Lemma kfold_loop_done : forall n g look e p tests,
  ended (kfold_loop (seq 0 n) g look e p tests) = Done ->
  map snd (yields (kfold_loop (seq 0 n) g look e p tests)) = tests.
Proof.
  induction tests as [|t ts IH]; simpl; intros H; auto.
  destruct (kfold_train (seq 0 n) t g look e p) eqn:E; simpl in *; [|discriminate].
  f_equal; auto.
Qed.

(** What the preparation step guarantees. *)
Lemma kfold_prepare_ok : forall c X y ga indices g e p tests,
  2 <= kf_folds c ->
  kfold_prepare c X y ga = Ok (indices, g, e, p, tests) ->
  exists bs, let n := x_rows X in
    indices = seq 0 n /\ X = XArr n /\ length (g_val g) = n /\ nondecr (g_val g) /\ kf_folds c <= Z.of_nat n /\
    (g = match ga with GArr g => g | _ => arange_groups n end) /\
    adj0 0 bs n /\ length bs = Z.to_nat (kf_folds c) /\
    Forall (fun ab => aligned g (fst ab) /\ (fst ab < n)%nat) bs /\
    tests = (if kf_look c then tl (map bound_range bs) else map bound_range bs) /\
    (exists e0 p0, kf_embargo c = DInt e0 /\ kf_purge c = DInt p0 /\
      dval e = e0 * match ga, kf_freq c with GArr _, Some u => u | _, _ => 1 end /\
      dval p = p0 * match ga, kf_freq c with GArr _, Some u => u | _, _ => 1 end) /\
    (exists bs0, mapM fold_bound (array_split (seq 0 n) (Z.to_nat (kf_folds c))) = Ok bs0 /\
       modify_fold_bounds_all g bs0 = Ok bs).
Proof.
  unfold kfold_prepare; intros c X y ga indices g e p tests Hk H.
  apply bind_ok in H as [u1 [Hb H]]. apply bind_ok in H as [u2 [Hv H]].
  unfold basecv_split in Hb. destruct X as [n|]; [|discriminate]. simpl in *.
  set (g0 := match ga with GArr g => g | _ => arange_groups n end) in *.
  destruct (Nat.eqb_spec (length (g_val g0)) (length (seq 0 n))) as [El|]; [|discriminate].
  rewrite seq_length in El.
  apply bind_ok in H as [bs0 [H0 H]]. apply bind_ok in H as [bs [H1 H]]. injection H as <- <- <- <- <-.
  unfold validate_split_settings in Hv.
  destruct (Z.ltb_spec (Z.of_nat n) (kf_folds c)); [discriminate|].
  destruct (array_split_bounds n (Z.to_nat (kf_folds c)) ltac:(lia)) as [bs1 [B1 [_ [B2 [B3 B4]]]]].
  rewrite H0 in B1. injection B1 as ->.
  assert (Hs : nondecr (g_val g0)).
  { apply sortedb_spec. destruct y; try discriminate; destruct ga as [|gr|]; try discriminate; unfold g0;
    try (destruct (sortedb (g_val gr)) eqn:E; [auto|discriminate]);
    (apply sortedb_spec; intros i j Hij Hj; unfold arange_groups in *; simpl in *;
     rewrite map_length, seq_length in Hj;
     change 0 with (Z.of_nat 0%nat); rewrite !map_nth, !seq_nth by lia; lia). }
  destruct (modify_all_inv g0 n bs1 bs Hs El ltac:(lia) B3 H1) as [M1 [M2 M3]].
  exists bs. repeat split; auto.
  - congruence.
  - destruct (kf_embargo c) as [e0|]; [|discriminate]. destruct (kf_purge c) as [p0|]; [|discriminate].
    exists e0, p0. destruct ga; destruct (kf_freq c); simpl; repeat split; lia.
  - exists bs1; auto.
Qed.

(** ** Default groups *)
Lemma arange_length : forall n, length (g_val (arange_groups n)) = n.
Proof. intros; unfold arange_groups; simpl; rewrite map_length, seq_length; auto. Qed.

Lemma gat_arange : forall n i, (i < n)%nat -> gat (arange_groups n) i = Z.of_nat i.
Proof.
  intros. unfold gat, arange_groups; simpl. change 0 with (Z.of_nat 0%nat).
  rewrite map_nth, seq_nth by lia. reflexivity.
Qed.

Lemma arange_nondecr : forall n, nondecr (g_val (arange_groups n)).
Proof.
  intros n i j Hij Hj. rewrite arange_length in Hj.
  fold (gat (arange_groups n) i) (gat (arange_groups n) j). rewrite !gat_arange; lia.
Qed.

Lemma modify_strict : forall n rest a b,
  adj (S b) rest n -> (b < n)%nat ->
  modify_fold_bounds (arange_groups n) (a, b) rest = Ok ((a, b) :: rest).
Proof.
  induction rest as [|[c d] rest IH]; simpl; intros a b Hadj Hb; auto.
  destruct Hadj as [-> [Hd Hadj]]. assert (Hle := adj_le _ _ _ Hadj).
  rewrite (getitem_in _ b) by (rewrite arange_length; auto). simpl.
  rewrite (getitem_in _ (S b)) by (rewrite arange_length; lia). simpl.
  rewrite !gat_arange by lia. destruct (Z.eqb_spec (Z.of_nat b) (Z.of_nat (S b))); [lia|].
  rewrite IH by (auto; lia). reflexivity.
Qed.

Lemma zmax_map_nat : forall l v, zmax_list (Z.of_nat v) (map Z.of_nat l) = Z.of_nat (fold_left Nat.max l v).
Proof. induction l; simpl; intros; auto. unfold zmax_list in *. simpl.
  rewrite <- Nat2Z.inj_max. apply IHl. Qed.

Lemma sel_max_seq : forall n a len, (a + S len <= n)%nat ->
  sel_max (arange_groups n) (seq a (S len)) = Ok (Some (Z.of_nat (a + len))).
Proof.
  intros n a len H. assert (E : exists o, sel_max (arange_groups n) (seq a (S len)) = Ok o).
  { unfold sel_max. rewrite mapM_getitem_in; [simpl; eauto|].
    intros i Hi; apply in_seq in Hi; rewrite arange_length; lia. }
  destruct E as [o E]. rewrite E. apply sel_max_spec in E. destruct o as [m|].
  - destruct E as [[j [J1 J2]] J3]. apply in_seq in J1. rewrite gat_arange in J2 by lia.
    specialize (J3 (a + len)%nat). rewrite in_seq, gat_arange in J3 by lia.
    specialize (J3 ltac:(lia)). do 2 f_equal. lia.
  - destruct E as [E _]; discriminate.
Qed.

Lemma sel_min_seq : forall n a len, (a + S len <= n)%nat ->
  sel_min (arange_groups n) (seq a (S len)) = Ok (Some (Z.of_nat a)).
Proof.
  intros n a len H. assert (E : exists o, sel_min (arange_groups n) (seq a (S len)) = Ok o).
  { unfold sel_min. rewrite mapM_getitem_in; [simpl; eauto|].
    intros i Hi; apply in_seq in Hi; rewrite arange_length; lia. }
  destruct E as [o E]. rewrite E. apply sel_min_spec in E. destruct o as [m|].
  - destruct E as [[j [J1 J2]] J3]. apply in_seq in J1. rewrite gat_arange in J2 by lia.
    specialize (J3 a). rewrite in_seq, gat_arange in J3 by lia.
    specialize (J3 ltac:(lia)). do 2 f_equal. lia.
  - destruct E as [E _]; discriminate.
Qed.

Lemma mask_select_arange : forall n p,
  mask_select (seq 0 n) (arange_groups n) p = Ok (filter (fun i => p (gat (arange_groups n) i)) (seq 0 n)).
Proof. intros; apply mask_select_seq; split; auto; apply arange_length. Qed.

Lemma validate_arange : forall n d, 0 <= d -> validate_purge_embargo_inputs (arange_groups n) (DInt d) = Ok tt.
Proof.
  intros. unfold validate_purge_embargo_inputs; simpl. destruct (Z.ltb_spec d 0); [lia|].
  assert (E := arange_nondecr n). apply sortedb_spec in E. simpl in E. rewrite E. reflexivity.
Qed.

(** With arange groups and enough room the training set exists. *)
Lemma kfold_train_arange : forall n a len e p,
  (a + S len <= n)%nat -> 0 <= e -> 0 <= p -> Z.of_nat (S len) + e + p < Z.of_nat n ->
  exists tr, kfold_train (seq 0 n) (seq a (S len)) (arange_groups n) false (DInt e) (DInt p) = Ok tr.
Proof.
  intros n a len e p H He Hp Hroom. unfold kfold_train, get_train_index_per_split. cbn [bind].
  (* a sample that survives *)
  assert (Hw : exists i, (i < n)%nat /\ ~ In i (seq a (S len)) /\
     ~ (Z.of_nat (a + len) < Z.of_nat i <= Z.of_nat (a + len) + p) /\
     ~ (Z.of_nat a - e <= Z.of_nat i < Z.of_nat a)).
  { destruct (Z_lt_le_dec (Z.of_nat (a + len) + p) (Z.of_nat (n - 1))).
    - exists (n - 1)%nat. rewrite in_seq. lia.
    - exists 0%nat. rewrite in_seq. lia. }
  destruct Hw as [i [W1 [W2 [W3 W4]]]].
  unfold purge. rewrite validate_arange by auto. cbn [bind].
  rewrite sel_max_seq by auto. cbn [bind plus_delta_o plus_delta g_kind arange_groups is_time].
  fold (arange_groups n). rewrite mask_select_arange. cbn [bind].
  match goal with |- context [setdiff1d (setdiff1d _ _) ?pg] => set (pu := pg) end.
  set (t1 := setdiff1d (setdiff1d (seq 0 n) (seq a (S len))) pu).
  assert (I1 : In i t1).
  { unfold t1, pu. rewrite !In_setdiff1d, filter_In, in_seq. split; [split; [lia|auto]|].
    intros [_ Hx]. rewrite gat_arange in Hx by auto. simpl in Hx. lia. }
  destruct t1 as [|x t1'] eqn:Et1; [destruct I1|]. rewrite <- Et1 in *. cbn [bind].
  assert (I2 : In i (setdiff1d t1 pu)).
  { rewrite In_setdiff1d; split; auto. unfold t1 in I1. rewrite In_setdiff1d in I1. tauto. }
  unfold embargo. rewrite validate_arange by auto. cbn [bind].
  rewrite sel_min_seq by auto. cbn [bind plus_delta_o plus_delta neg_delta g_kind arange_groups is_time].
  fold (arange_groups n). rewrite mask_select_arange. cbn [bind].
  match goal with |- context [setdiff1d (setdiff1d t1 pu) ?pg] => set (eu := pg) end.
  set (t2 := setdiff1d (setdiff1d t1 pu) eu).
  assert (I3 : In i t2).
  { unfold t2, eu. rewrite In_setdiff1d, filter_In, in_seq. split; [auto|].
    intros [_ Hx]. rewrite gat_arange in Hx by auto. simpl in Hx. lia. }
  destruct t2; [destruct I3|]. eauto.
Qed.

Lemma blocks_sizes : forall sizes p, Forall (fun s => (1 <= s)%nat) sizes ->
  map (@length nat) (map bound_range (blocks p sizes)) = sizes.
Proof.
  induction sizes as [|s ss IH]; simpl; intros p Hf; auto. inversion Hf; subst.
  rewrite IH by auto. f_equal. unfold bound_range; cbn [fst snd]. rewrite seq_length. lia.
Qed.

Lemma blocks_in : forall n sizes p t, (p + sum_nat sizes = n)%nat -> Forall (fun s => (1 <= s)%nat) sizes ->
  In t (map bound_range (blocks p sizes)) -> exists a s, In (S s) sizes /\ t = seq a (S s) /\ (a + S s <= n)%nat.
Proof.
  induction sizes as [|s ss IH]; simpl; intros p t Hsum Hf Ht; [tauto|]. inversion Hf; subst.
  destruct Ht as [<-|Ht].
  - destruct s as [|s]; [lia|]. exists p, s. split; [auto|]. unfold bound_range; cbn [fst snd].
    replace (S (p + S s - 1) - p)%nat with (S s) by lia. split; [reflexivity|lia].
  - destruct (IH (p + s)%nat t ltac:(lia) H2 Ht) as [a [s' [A [B C]]]]. exists a, s'; auto.
Qed.

Lemma kfold_loop_all_ok : forall n g look e p tests,
  (forall t, In t tests -> exists tr, kfold_train (seq 0 n) t g look e p = Ok tr) ->
  ended (kfold_loop (seq 0 n) g look e p tests) = Done.
Proof.
  induction tests as [|t ts IH]; simpl; intros H; auto.
  destruct (H t (or_introl eq_refl)) as [tr ->]. simpl. auto.
Qed.

Lemma kfold_default_success : forall k e p freq n y,
  2 <= k <= Z.of_nat n -> 0 <= e -> 0 <= p -> y <> YBad ->
  e + p < Z.of_nat n - (Z.of_nat n + k - 1) / k ->
  let r := kfold_split (mkKF k (DInt e) (DInt p) false freq) (XArr n) y GNone in
  ended r = Done /\ map (@length nat) (map snd (yields r)) = split_sizes n (Z.to_nat k).
Proof.
  intros k e p freq n y Hk He Hp Hy Hroom. cbv zeta.
  unfold kfold_split, kfold_prepare. simpl basecv_split.
  assert (Eb : (match y with YBad => Raise TypeError | _ => Ok tt end : res unit) = Ok tt)
    by (destruct y; congruence).
  rewrite Eb. cbn [bind x_rows kf_folds kf_embargo kf_purge kf_look].
  set (kn := Z.to_nat k). assert (Hkn : (1 <= kn <= n)%nat) by (unfold kn; lia).
  assert (Hdiv : Z.of_nat n / k <= (Z.of_nat n + k - 1) / k) by (apply Z.div_le_mono; lia).
  assert (Hd0 : 0 <= Z.of_nat n / k) by (apply Z.div_pos; lia).
  unfold validate_split_settings.
  destruct (Z.ltb_spec (Z.of_nat n) k); [lia|].
  destruct (p + e >=? Z.of_nat n) eqn:E1; [lia|]. cbv zeta.
  destruct ((p >? Z.of_nat n - Z.of_nat n / k) || (e >? Z.of_nat n - Z.of_nat n / k)
            || (e + p >? Z.of_nat n - Z.of_nat n / k)) eqn:E2; [lia|].
  cbn [bind]. cbv zeta. rewrite arange_length, seq_length, Nat.eqb_refl.
  destruct (array_split_bounds n kn Hkn) as [bs [B1 [B2 [_ [B3 B4]]]]].
  rewrite B1. cbn [bind].
  assert (Hm : modify_fold_bounds_all (arange_groups n) bs = Ok bs).
  { destruct bs as [|[a b] rest]; auto. simpl in B3. destruct B3 as [-> [B3 B5]].
    assert (Hle := adj_le _ _ _ B5). apply modify_strict; auto; lia. }
  rewrite Hm. cbn [bind].
  destruct (split_sizes_ok n kn Hkn) as [S1 [S2 S3]].
  assert (Hend : ended (kfold_loop (seq 0 n) (arange_groups n) false (DInt e) (DInt p) (map bound_range bs)) = Done).
  { apply kfold_loop_all_ok. intros t Ht. rewrite B2 in Ht.
    destruct (blocks_in n _ _ _ (S1 : (0 + _ = n)%nat) S2 Ht) as [a [s [A [-> C]]]].
    apply kfold_train_arange; auto.
    assert (Hs : Z.of_nat (S s) <= (Z.of_nat n + k - 1) / k).
    { assert (Hq : Z.of_nat (n / kn) = Z.of_nat n / k).
      { rewrite Nat2Z.inj_div. f_equal. unfold kn; lia. }
      assert (Hr : Z.of_nat (n mod kn) = Z.of_nat n mod k).
      { rewrite Nat2Z.inj_mod. f_equal. unfold kn; lia. }
      unfold split_sizes in A. apply in_app_or in A as [A|A].
      - assert (Hin : (0 < n mod kn)%nat) by (destruct (n mod kn)%nat; simpl in A; [tauto|lia]).
        apply repeat_spec in A. rewrite A, Nat2Z.inj_succ, Hq.
        apply Z.div_le_lower_bound; [lia|].
        assert (Z.of_nat n = k * (Z.of_nat n / k) + Z.of_nat n mod k) by (apply Z.div_mod; lia). lia.
      - apply repeat_spec in A. rewrite A, Hq. auto. }
    lia. }
  split; auto.
  rewrite kfold_loop_done by auto. rewrite B2. apply blocks_sizes; auto.
Qed.

(** ** A group filling a nominal fold *)
Lemma modify_head : forall g cur rest b0 bs, modify_fold_bounds g cur rest = Ok (b0 :: bs) ->
  fst b0 = fst cur /\ (b0 = cur \/ gat g (snd b0) = gat g (snd cur) /\ (snd cur < length (g_val g))%nat /\ (snd b0 < length (g_val g))%nat).
Proof.
  intros g cur rest b0 bs H. destruct rest as [|nxt rest]; simpl in H.
  - injection H as <- <-; auto.
  - apply bind_ok in H as [lg [H1 H]]. apply getitem_ok in H1 as [Hl ->].
    apply bind_ok in H as [fg [H1 H]]. apply getitem_ok in H1 as [_ ->].
    destruct (_ =? _).
    + apply bind_ok in H as [ng [_ H]]. apply bind_ok in H as [e [He H]].
      destruct (rev (where_eq g (gat g (snd cur)))) eqn:Ee; [discriminate|]. injection He as ->.
      apply last_where in Ee as [E1 [E2 _]].
      apply bind_ok in H as [s [_ H]]. apply bind_ok in H as [tl [_ H]]. injection H as <- <-. simpl. auto.
    + apply bind_ok in H as [tl [_ H]]. injection H as <- <-; auto.
Qed.

Lemma modify_nonempty : forall g n, nondecr (g_val g) -> length (g_val g) = n ->
  forall rest a b bs, adj (S b) rest n -> (b < n)%nat ->
  modify_fold_bounds g (a, b) rest = Ok bs ->
  (forall a' b', In (a', b') (tl bs) -> (a' <= b')%nat) ->
  forall c d, In (c, d) rest -> gat g (c - 1) < gat g d.
Proof.
  intros g n Hs Hn. induction rest as [|[c0 d0] rest IH]; simpl; intros a b bs Hadj Hb H Hne c d Hin; [tauto|].
  destruct Hadj as [-> [Hd Hadj]]. assert (Hle := adj_le _ _ _ Hadj).
  apply bind_ok in H as [lg [H1 H]]. apply getitem_ok in H1 as [_ ->].
  apply bind_ok in H as [fg [H1 H]]. apply getitem_ok in H1 as [Hb1 ->].
  assert (Hsd : gat g (S b) <= gat g d0) by (apply Hs; lia).
  assert (Hsb : gat g b <= gat g (S b)) by (apply Hs; lia).
  destruct (Z.eqb_spec (gat g b) (gat g (S b))) as [E|E].
  - apply bind_ok in H as [ng [Hng H]]. apply next_group_spec in Hng as [N1 [[ni [N2 N2']] N3]]; auto.
    apply bind_ok in H as [e [He H]]. destruct (rev (where_eq g (gat g b))) as [|e' te] eqn:Ee; [discriminate|].
    injection He as ->. apply last_where in Ee as [E1 [E2 E3]].
    apply bind_ok in H as [s [Hsx H]]. destruct (where_eq g ng) as [|s' ts] eqn:Es; [discriminate|].
    injection Hsx as ->. apply first_where in Es as [S1 [S2 S3]].
    apply bind_ok in H as [tl [Htl H]]. injection H as <-. simpl in Hne.
    destruct Hin as [Hin|Hin].
    + injection Hin as <- <-. replace (S b - 1)%nat with b by lia.
      destruct (Z.eq_dec (gat g d0) (gat g b)) as [Eq|]; [|lia].
      exfalso. destruct tl as [|[a1 b1] tl].
      { destruct rest as [|nx rs]; simpl in Htl; [discriminate|].
        apply bind_ok in Htl as [? [_ Htl]]. apply bind_ok in Htl as [? [_ Htl]].
        destruct (_ =? _).
        - apply bind_ok in Htl as [? [_ Htl]]. apply bind_ok in Htl as [? [_ Htl]].
          apply bind_ok in Htl as [? [_ Htl]]. apply bind_ok in Htl as [? [_ Htl]]. discriminate.
        - apply bind_ok in Htl as [? [_ Htl]]. discriminate. }
      destruct (modify_head _ _ _ _ _ Htl) as [M1 M2]. simpl in M1, M2. subst a1.
      assert (Hle2 := Hne s b1 (or_introl eq_refl)).
      assert (Hb1e : gat g b1 = gat g b).
      { destruct M2 as [M2|[M2 _]]; [injection M2 as ->; auto|congruence]. }
      assert (Hb1n : (b1 < length (g_val g))%nat).
      { destruct M2 as [M2|[_ [_ M2]]]; [injection M2 as ->; lia|auto]. }
      assert (gat g s <= gat g b1) by (apply Hs; lia). lia.
    + eapply IH; [exact Hadj| lia | exact Htl | | exact Hin].
      intros a' b' Hi. apply Hne. destruct tl; simpl in *; auto.
  - apply bind_ok in H as [tl [Htl H]]. injection H as <-. simpl in Hne.
    destruct Hin as [Hin|Hin].
    + injection Hin as <- <-. replace (S b - 1)%nat with b by lia. lia.
    + eapply IH; [exact Hadj| lia | exact Htl | | exact Hin].
      intros a' b' Hi. apply Hne. destruct tl; simpl in *; auto.
Qed.

Lemma blocks_chop_In : forall sizes p len t, sum_nat sizes = len -> Forall (fun s => (1 <= s)%nat) sizes ->
  In t (chop sizes (seq p len)) -> exists a b, In (a, b) (blocks p sizes) /\ t = seq a (S b - a) /\ (a <= b)%nat /\ (b < p + len)%nat.
Proof.
  intros sizes p len t H1 H2 Ht. destruct (chop_bounds sizes p len H1 H2) as [_ [E [A _]]].
  rewrite E in Ht. apply in_map_iff in Ht as [[a b] [<- Hab]]. exists a, b. split; auto. split; [reflexivity|].
  revert A Hab. generalize (blocks p sizes) as bs. generalize (p + len)%nat as q. clear. intros q bs; revert p.
  induction bs as [|[c d] bs IH]; simpl; intros p A Hab; [tauto|].
  destruct A as [-> [A1 A2]]. assert (Hle := adj_le _ _ _ A2).
  destruct Hab as [Hab|Hab]; [injection Hab as <- <-; lia|]. eapply IH; eauto.
Qed.
