(** Lemmas for the complete description of a TimeAwareKFold run. *)
From Coq Require Import List ZArith Bool Arith Lia Sorted ZifyBool.
From Verif Require Import Base Split_Model Split_Proofs Kfold_Spec Kfold_Proofs Kfold_Props Split_Props.
Import ListNotations.
Open Scope Z_scope.

Lemma firstn_repeat : forall A (a : A) m j, firstn j (repeat a m) = repeat a (Nat.min j m).
Proof. induction m; intros j; destruct j; simpl; auto. f_equal; auto. Qed.

Lemma sum_firstn_sizes : forall n k j, (0 < k)%nat -> (j <= k)%nat ->
  sum_nat (firstn j (split_sizes n k)) = fold_start n k j.
Proof.
  intros n k j Hk Hj. unfold split_sizes, fold_start.
  assert (Hr : (n mod k < k)%nat) by (apply Nat.mod_upper_bound; lia).
  rewrite firstn_app, sum_app, repeat_length, !firstn_repeat, !sum_repeat.
  destruct (Nat.le_gt_cases j (n mod k)).
  - rewrite !Nat.min_l by lia. nia.
  - rewrite (Nat.min_r j) by lia. rewrite Nat.min_l by lia. nia.
Qed.

Lemma blocks_nth : forall sizes p j, (j < length sizes)%nat -> Forall (fun s => (1 <= s)%nat) sizes ->
  nth_error (blocks p sizes) j
  = Some (p + sum_nat (firstn j sizes), p + sum_nat (firstn (S j) sizes) - 1)%nat.
Proof.
  induction sizes as [|s ss IH]; intros p j Hj Hf; cbn [length] in Hj; [lia|].
  inversion Hf; subst.
  assert (Es : forall x l, sum_nat (x :: l) = (x + sum_nat l)%nat) by reflexivity.
  destruct j as [|j]; cbn [blocks nth_error firstn].
  - rewrite Es. change (sum_nat (firstn 0 ss)) with 0%nat. change (sum_nat []) with 0%nat. do 2 f_equal; lia.
  - rewrite IH by (auto; lia). rewrite !Es. do 2 f_equal; try lia.
    change (match ss with [] => [] | a :: l => a :: firstn j l end) with (firstn (S j) ss). lia.
Qed.

Lemma fold_start_0 : forall n k, fold_start n k 0 = 0%nat.
Proof. reflexivity. Qed.

Lemma fold_start_last : forall n k, (0 < k)%nat -> fold_start n k k = n.
Proof.
  intros n k Hk. unfold fold_start. assert (n mod k < k)%nat by (apply Nat.mod_upper_bound; lia).
  rewrite Nat.min_r by lia. rewrite (Nat.div_mod n k) at 3 by lia. lia.
Qed.

Lemma fold_start_lt : forall n k j, (0 < k <= n)%nat -> (fold_start n k j < fold_start n k (S j))%nat.
Proof.
  intros n k j Hk. unfold fold_start. assert (1 <= n / k)%nat by (apply Nat.div_le_lower_bound; lia). lia.
Qed.

Lemma fold_start_mono : forall n k i j, (0 < k <= n)%nat -> (i < j)%nat -> (fold_start n k i < fold_start n k j)%nat.
Proof.
  intros n k i j Hk H. induction H as [|j H IH]; [apply fold_start_lt; auto|].
  assert (X := fold_start_lt n k j Hk). lia.
Qed.

(** the nominal bounds, fold by fold *)
Definition nominal_bounds (n k : nat) : list (nat * nat) :=
  map (fun j => (fold_start n k j, fold_start n k (S j) - 1)%nat) (seq 0 k).

Lemma nth_error_ext' : forall A (l1 l2 : list A), (forall i, nth_error l1 i = nth_error l2 i) -> l1 = l2.
Proof.
  induction l1 as [|a l1 IH]; intros [|b l2] H; auto.
  - specialize (H 0%nat); discriminate.
  - specialize (H 0%nat); discriminate.
  - assert (H0 := H 0%nat). simpl in H0. injection H0 as ->. f_equal. apply IH. intros i. exact (H (S i)).
Qed.

Lemma nth_error_seq' : forall m a i, nth_error (seq a m) i = if (i <? m)%nat then Some (a + i)%nat else None.
Proof.
  induction m; intros a i; destruct i; cbn [seq nth_error]; auto.
  - rewrite Nat.add_0_r. reflexivity.
  - rewrite IHm. destruct (Nat.ltb_spec i m); destruct (Nat.ltb_spec (S i) (S m)); try lia; auto. f_equal; lia.
Qed.

Lemma blocks_nominal : forall n k, (1 <= k <= n)%nat -> blocks 0 (split_sizes n k) = nominal_bounds n k.
Proof.
  intros n k H. destruct (split_sizes_ok n k H) as [H1 [H2 H3]]. apply nth_error_ext'. intros i.
  unfold nominal_bounds. rewrite nth_error_map, nth_error_seq'.
  destruct (Nat.ltb_spec i k).
  - rewrite blocks_nth by (auto; lia). rewrite !sum_firstn_sizes by lia. cbn [option_map]. do 2 f_equal; lia.
  - cbn [option_map]. apply nth_error_None.
    destruct (chop_bounds _ 0%nat n H1 H2) as [_ [_ [_ E]]]. lia.
Qed.

(** q is the first group boundary at or after p *)
Definition lands (g : groups) (p q : nat) : Prop :=
  (p <= q)%nat /\ aligned g q /\ forall r, (p <= r < q)%nat -> ~ aligned g r.

Definition blocking (g : groups) (n c : nat) : Prop :=
  gat g (c - 1) = gat g c /\ (is_series (g_kind g) = true \/ gat g c = gat g (n - 1)).

Definition block_exn (g : groups) : exn := if is_series (g_kind g) then KeyError else IndexError.

Lemma filter_nil : forall A (f : A -> bool) l, (forall x, In x l -> f x = false) -> filter f l = [].
Proof. induction l; simpl; intros H; auto. rewrite H by auto. auto. Qed.

Lemma next_group_run : forall g n b, nondecr (g_val g) -> length (g_val g) = n -> (b < n)%nat ->
  (is_series (g_kind g) = true \/ gat g b = gat g (n - 1) -> next_group g (gat g b) = Raise (block_exn g)) /\
  (is_series (g_kind g) = false -> gat g b <> gat g (n - 1) -> exists w, next_group g (gat g b) = Ok w).
Proof.
  intros g n b Hs Hn Hb. unfold next_group, block_exn. destruct (is_series (g_kind g)) eqn:Ek.
  - split; [|discriminate]. intros _. destruct (g_val g) as [|v0 l] eqn:E; auto.
    assert (v0 <= gat g b).
    { unfold gat. rewrite E. apply (Hs 0%nat b); lia. }
    destruct (v0 >? gat g b) eqn:E1; [lia|auto].
  - split.
    + intros [H|H]; [discriminate|]. rewrite filter_nil; auto. intros x Hx.
      apply (In_nth _ _ 0) in Hx as [i [Hi <-]]. assert (gat g i <= gat g (n - 1)) by (apply Hs; lia).
      unfold gat in *. lia.
    + intros _ H. assert (Hl : gat g b <= gat g (n - 1)) by (apply Hs; lia).
      destruct (filter (fun x => x >? gat g b) (g_val g)) as [|w f] eqn:E; [|eauto].
      assert (In (gat g (n - 1)) (filter (fun x => x >? gat g b) (g_val g))).
      { apply filter_In. split; [apply nth_In; lia|lia]. }
      rewrite E in H0. destruct H0.
Qed.

Lemma modify_run : forall g n, nondecr (g_val g) -> length (g_val g) = n ->
  forall rest a a' b, adj (S b) rest n -> (b < n)%nat -> lands g a a' ->
  ((exists c, In c (map fst rest) /\ blocking g n c) ->
     modify_fold_bounds g (a', b) rest = Raise (block_exn g)) /\
  (~ (exists c, In c (map fst rest) /\ blocking g n c) ->
     exists bs, modify_fold_bounds g (a', b) rest = Ok bs /\
       Forall2 (fun nom fin => lands g (fst nom) (fst fin) /\ lands g (S (snd nom)) (S (snd fin)))
         ((a, b) :: rest) bs).
Proof.
  intros g n Hs Hn. induction rest as [|[c d] rest IH]; intros a a' b Hadj Hb Hl.
  - split; [intros [c [[] _]]|]. intros _. exists [(a', b)]. split; [reflexivity|]. constructor; [|constructor].
    cbn [fst snd]. split; auto. simpl in Hadj. subst n. split; [lia|]. split; [right; left; lia|]. intros; lia.
  - cbn [adj] in Hadj. destruct Hadj as [-> [Hd Hadj]]. assert (Hle := adj_le _ _ _ Hadj).
    cbn [modify_fold_bounds fst snd]. rewrite !getitem_in by lia. cbn [bind].
    assert (Hsb : gat g b <= gat g (S b)) by (apply Hs; lia).
    destruct (Z.eqb_spec (gat g b) (gat g (S b))) as [E|E].
    + destruct (next_group_run g n b Hs Hn Hb) as [N1 N2].
      assert (Hblk : blocking g n (S b) <-> (is_series (g_kind g) = true \/ gat g b = gat g (n - 1))).
      { unfold blocking. replace (S b - 1)%nat with b by lia. rewrite <- E. tauto. }
      assert (Hdec : (is_series (g_kind g) = true \/ gat g b = gat g (n - 1)) \/
                     (is_series (g_kind g) = false /\ gat g b <> gat g (n - 1))).
      { destruct (is_series (g_kind g)); auto. destruct (Z.eq_dec (gat g b) (gat g (n - 1))); auto. }
      destruct Hdec as [Hdec|[D1 D2]].
      * rewrite N1 by auto. split; [auto|]. intros H. exfalso. apply H. exists (S b). cbn [map fst In].
        rewrite Hblk. auto.
      * destruct (N2 D1 D2) as [ng Hng]. rewrite Hng. cbn [bind].
        assert (Hns := next_group_spec _ _ _ Hs Hng). destruct Hns as [M1 [[ni [M2 M2']] M3]].
        destruct (rev (where_eq g (gat g b))) as [|e te] eqn:Ee.
        { assert (Hin : In b (where_eq g (gat g b))) by (apply In_where_eq; split; [lia|auto]).
          rewrite in_rev, Ee in Hin. destruct Hin. }
        apply last_where in Ee as [E1 [E2 E3]]. cbn [bind].
        destruct (where_eq g ng) as [|s ts] eqn:Es.
        { assert (Hin : In ni (where_eq g ng)) by (apply In_where_eq; auto). rewrite Es in Hin. destruct Hin. }
        apply first_where in Es as [S1 [S2 S3]]. cbn [bind].
        assert (Hbe : (S b <= e)%nat) by (apply E3; [lia|congruence]).
        assert (Hes : s = S e).
        { assert (e < s)%nat.
          { destruct (Nat.lt_ge_cases e s); auto.
            assert (gat g s <= gat g e) by (apply Hs; lia). lia. }
          assert (s <= S e)%nat; [|lia].
          assert (HSe : (S e < length (g_val g))%nat) by lia.
          assert (gat g e <= gat g (S e)) by (apply Hs; lia).
          apply S3; auto.
          assert (gat g (S e) <= gat g s) by (apply Hs; lia).
          destruct (Z.eq_dec (gat g (S e)) (gat g b)) as [Ex|Ex].
          { apply E3 in Ex; lia. }
          specialize (M3 (S e) HSe ltac:(lia)). lia. }
        subst s.
        assert (HL : lands g (S b) (S e)).
        { split; [lia|]. split.
          - right; right. replace (S e - 1)%nat with e by lia. lia.
          - intros r Hr [X|[X|X]]; [lia|lia|].
            assert (gat g b <= gat g (r - 1)) by (apply Hs; lia).
            assert (gat g r <= gat g e) by (apply Hs; lia). lia. }
        destruct (IH (S b) (S e) d Hadj ltac:(lia) HL) as [I1 I2]. split.
        -- intros [c [Hc Hb']]. cbn [map fst In] in Hc. destruct Hc as [<-|Hc].
           { apply Hblk in Hb'. destruct Hb'; congruence. }
           rewrite I1 by eauto. reflexivity.
        -- intros H. destruct I2 as [bs [I2 I3]].
           { intros [c [Hc Hb']]. apply H. exists c. cbn [map fst In]. auto. }
           rewrite I2. cbn [bind]. eexists; split; [reflexivity|]. constructor; auto.
    + destruct (IH (S b) (S b) d Hadj ltac:(lia)) as [I1 I2].
      { split; [lia|]. split; [right; right; replace (S b - 1)%nat with b by lia; lia|intros; lia]. }
      split.
      * intros [c [Hc Hb']]. cbn [map fst In] in Hc. destruct Hc as [<-|Hc].
        { destruct Hb' as [X _]. replace (S b - 1)%nat with b in X by lia. congruence. }
        rewrite I1 by eauto. reflexivity.
      * intros H. destruct I2 as [bs [I2 I3]].
        { intros [c [Hc Hb']]. apply H. exists c. cbn [map fst In]. auto. }
        rewrite I2. cbn [bind]. eexists; split; [reflexivity|]. constructor; auto. cbn [fst snd]. split; auto.
        split; [lia|]. split; [right; right; replace (S b - 1)%nat with b by lia; lia|intros; lia].
Qed.

(** i is at or after the landing point iff the first sample of its group is at or after the nominal start *)
Lemma lands_spec : forall g n p q i s, nondecr (g_val g) -> length (g_val g) = n -> lands g p q ->
  (i < n)%nat -> (s <= i)%nat -> gat g s = gat g i -> (forall m, (m < s)%nat -> gat g m <> gat g i) ->
  (q <= i)%nat <-> (p <= s)%nat.
Proof.
  intros g n p q i s Hs Hn [L1 [L2 L3]] Hi Hsi He Hf. split; intros H.
  - destruct (Nat.le_gt_cases q s); [lia|].
    destruct L2 as [L2|[L2|L2]]; [lia|lia|].
    assert (gat g s <= gat g (q - 1)) by (apply Hs; lia).
    assert (gat g q <= gat g i) by (apply Hs; lia). lia.
  - destruct (Nat.le_gt_cases q i); auto. exfalso. apply (L3 s); [lia|].
    destruct s as [|s]; [left; auto|]. right; right. replace (S s - 1)%nat with s by lia.
    assert (gat g s <= gat g (S s)) by (apply Hs; lia). specialize (Hf s ltac:(lia)). lia.
Qed.

Lemma first_exists : forall (G : nat -> Z) i, exists s, (s <= i)%nat /\ G s = G i /\ forall m, (m < s)%nat -> G m <> G i.
Proof.
  intros G i. assert (H : forall k, (k <= i)%nat -> (exists s, (s < k)%nat /\ G s = G i /\ forall m, (m < s)%nat -> G m <> G i)
      \/ forall m, (m < k)%nat -> G m <> G i).
  { induction k as [|k IH]; intros Hk; [right; intros; lia|].
    destruct IH as [[s [H1 H2]]|IH]; [lia|left; exists s; split; [lia|auto]|].
    destruct (Z.eq_dec (G k) (G i)); [left; exists k; split; [lia|auto]|].
    right. intros m Hm. destruct (Nat.eq_dec m k); [subst; auto|apply IH; lia]. }
  destruct (H i ltac:(lia)) as [[s [H1 H2]]|H1].
  - exists s. split; [lia|auto].
  - exists i. split; [lia|]. auto.
Qed.

(** outcome of the loop body *)
Lemma kfold_train_run : forall n test g look e p a len,
  test = seq a len -> (a + len <= n)%nat -> (0 < n)%nat -> aligned g a -> aligned g (a + len) ->
  compatible g e -> compatible g p -> 0 <= magnitude e -> 0 <= magnitude p ->
  ascending (g_val g) -> length (g_val g) = n ->
  let kept i := (i < n)%nat /\
     ((forall j, In j test -> gat g i + magnitude e < gat g j) \/
      (look = false /\ forall j, In j test -> gat g j + magnitude p < gat g i)) in
  (test = [] -> look = true -> kfold_train (seq 0 n) test g look e p = Raise IndexError) /\
  (test = [] -> look = false -> g_kind g = ArrInt -> kfold_train (seq 0 n) test g look e p = Raise ValueError) /\
  (test = [] -> look = false -> g_kind g <> ArrInt -> exists tr, kfold_train (seq 0 n) test g look e p = Ok tr) /\
  (test <> [] -> (exists i, kept i) -> exists tr, kfold_train (seq 0 n) test g look e p = Ok tr) /\
  (test <> [] -> ~ (exists i, kept i) -> kfold_train (seq 0 n) test g look e p = Raise ValueError).
Proof.
  intros n test g look e p a len Ht Hle Hn0 A1 A2 Ce Cp He Hp Hasc Hn kept.
  assert (Hs := Hasc). apply ascending_nondecr in Hs.
  assert (Hsb := Hs). apply sortedb_spec in Hsb.
  assert (Hval : forall d, compatible g d -> 0 <= magnitude d -> validate_purge_embargo_inputs g d = Ok tt).
  { intros d Hc Hd. unfold validate_purge_embargo_inputs, compatible in *.
    destruct d as [x|x]; destruct (g_kind g); try tauto; simpl in Hd;
      (destruct (Z.ltb_spec x 0); [lia|]; rewrite Hsb; reflexivity). }
  assert (Hplus : forall d, compatible g d -> plus_delta_o (g_kind g) None d = Ok None).
  { intros d Hc. unfold plus_delta_o, plus_delta, compatible in *. destruct d; destruct (g_kind g); try tauto; reflexivity. }
  assert (Hneg : forall d, compatible g d -> compatible g (neg_delta d)) by (intros [x|x]; simpl; auto).
  split; [|split; [|split]].
  - intros -> ->. reflexivity.
  - intros E -> Hk. rewrite E. unfold kfold_train, get_train_index_per_split. cbn [bind]. unfold purge.
    rewrite Hval by auto. cbn [bind]. unfold sel_max. cbn [mapM bind]. rewrite Hk. reflexivity.
  - intros E -> Hk. rewrite E. unfold kfold_train, get_train_index_per_split. cbn [bind]. unfold purge.
    rewrite Hval by auto. cbn [bind].
    assert (Hmx : sel_max g [] = Ok None) by (unfold sel_max; cbn [mapM bind]; destruct (g_kind g); congruence).
    assert (Hmn : sel_min g [] = Ok None) by (unfold sel_min; cbn [mapM bind]; destruct (g_kind g); congruence).
    rewrite Hmx. cbn [bind]. rewrite Hplus by auto. cbn [bind].
    assert (Hms : forall f, mask_select (seq 0 n) g f = Ok (filter (fun i => f (gat g i)) (seq 0 n))).
    { intros f. apply mask_select_seq; auto. }
    rewrite Hms. cbn [bind]. cbv zeta. rewrite filter_nil by (intros; simpl; reflexivity).
    set (t := setdiff1d (setdiff1d (seq 0 n) []) []).
    assert (I0 : In 0%nat t) by (unfold t; rewrite !In_setdiff1d, in_seq; simpl; intuition lia).
    destruct t as [|x t'] eqn:Et; [destruct I0|]. rewrite <- Et in *. clear Et. cbn [bind].
    unfold embargo. rewrite Hval by auto. cbn [bind]. rewrite Hmn. cbn [bind].
    rewrite Hplus by auto. cbn [bind]. rewrite Hms. cbn [bind]. cbv zeta.
    rewrite filter_nil by (intros; simpl; reflexivity).
    assert (I1 : In 0%nat (setdiff1d (setdiff1d t []) [])) by (rewrite !In_setdiff1d; simpl; intuition).
    destruct (setdiff1d (setdiff1d t []) []); [destruct I1|]. eauto.
  - assert (Hcase : test <> [] -> (exists tr, kfold_train (seq 0 n) test g look e p = Ok tr) \/
       (kfold_train (seq 0 n) test g look e p = Raise ValueError /\ ~ exists i, kept i)).
    { intros Hne. assert (Hin : forall j, In j test -> (j < n)%nat).
      { intros j Hj. rewrite Ht in Hj. apply in_seq in Hj. lia. }
      assert (Htr : exists t0, get_train_index_per_split (seq 0 n) test g look = Ok t0 /\
                    forall i, In i t0 <-> (i < n)%nat /\ ~ In i test /\
                     (look = true -> forall t, hd_error test = Some t -> gat g i <= gat g t)).
      { unfold get_train_index_per_split. destruct look.
        - destruct test as [|t tt] eqn:Et; [congruence|]. rewrite <- Et in *.
          rewrite getitem_in by (rewrite Hn; apply Hin; rewrite Et; simpl; auto). cbn [bind].
          rewrite (proj2 (mask_select_seq n g (fun v => v >? gat g t) _) (conj Hn eq_refl)). cbn [bind].
          eexists; split; [reflexivity|]. intros i. rewrite !In_setdiff1d, filter_In, in_seq.
          split.
          + intros [[X Y] Z]. repeat split; auto; [lia|]. intros _ t' E'. rewrite Et in E'. injection E' as <-.
            destruct (Z.le_gt_cases (gat g i) (gat g t)); auto. exfalso; apply Z; split; [lia|]. lia.
          + intros [X [Y Z]]. repeat split; auto; try lia. intros [_ W]. specialize (Z eq_refl t).
            rewrite Et in Z. specialize (Z eq_refl). lia.
        - eexists; split; [reflexivity|]. intros i. rewrite In_setdiff1d, in_seq. intuition (try lia; try discriminate). }
      destruct Htr as [t0 [Ht0 Hm0]]. unfold kfold_train. rewrite Ht0. cbn [bind].
      assert (Hb0 : forall i, In i t0 -> (i < n)%nat) by (intros i Hi; apply Hm0 in Hi; tauto).
      assert (Hkt : forall i, kept i -> In i t0).
      { intros i [Hi Hk]. apply Hm0. split; auto. split.
        - intros Hx. destruct Hk as [Hk|[_ Hk]]; specialize (Hk i Hx); lia.
        - intros -> t Hhd. assert (Hti : In t test) by (destruct test; [discriminate|]; injection Hhd as ->; simpl; auto).
          destruct Hk as [Hk|[Hk _]]; [specialize (Hk t Hti); lia|discriminate]. }
      destruct (C07_purge_exact t0 test n g p Cp Hp Hasc Hn Hne Hin Hb0) as [[t1 [P1 [P2 [P3 P4]]]]|[P1 P2]].
      2:{ right. rewrite P1. split; [reflexivity|]. intros [i Hk]. specialize (P2 i (Hkt i Hk)).
          destruct P2 as [Q1 [j [Q2 Q3]]]. destruct Hk as [_ [Hk|[_ Hk]]].
          - specialize (Q1 j Q2). specialize (Hk j Q2). unfold gv, gat in *. lia.
          - specialize (Hk j Q2). unfold gv, gat in *. lia. }
      rewrite P1. cbn [bind].
      assert (Hb1 : forall i, In i t1 -> (i < n)%nat) by (intros i Hi; apply P4 in Hi; apply Hb0; tauto).
      destruct (C07_embargo_exact t1 test n g e Ce He Hasc Hn Hne Hin Hb1) as [[t2 [E1 [E2 [E3 E4]]]]|[E1 E2]].
      { left. eauto. }
      right. split; [exact E1|]. intros [i Hk].
      assert (Hi1 : In i t1).
      { apply P4. split; [auto|]. intros [Q1 [j [Q2 Q3]]]. destruct Hk as [_ [Hk|[_ Hk]]].
        - specialize (Q1 j Q2). specialize (Hk j Q2). unfold gv, gat in *. lia.
        - specialize (Hk j Q2). unfold gv, gat in *. lia. }
      specialize (E2 i Hi1). destruct E2 as [Q1 [j [Q2 Q3]]]. destruct Hk as [_ [Hk|[_ Hk]]].
      - specialize (Hk j Q2). unfold gv, gat in *. lia.
      - specialize (Hk j Q2). specialize (Q1 j Q2). unfold gv, gat in *. lia. }
    split; intros Hne H; destruct (Hcase Hne) as [C|[C1 C2]]; auto; try contradiction.
    destruct C as [tr C]. exfalso. apply H.
    destruct (kfold_train_ok _ _ _ _ _ _ _ a len C Ht Hle A1 A2) as [_ [_ [_ [_ [R1 [_ [_ [_ [R2 _]]]]]]]]].
    destruct tr as [|i tr]; [congruence|]. exists i. apply (R2 Hne). simpl; auto.
Qed.
