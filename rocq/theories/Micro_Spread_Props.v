(** C64, C65, C66, C67: edge spread, VPIN and bulk volume, price impact, Roll measure. *)
From Coq Require Import Reals Lra Psatz ZArith List Arith Bool Lia.
From Verif Require Import Base Num Sums Feat_Ops Feat_Spec Feat_Proofs Ewm_Proofs Feat_Model Feat_Causal_Props Feat_Avg_Props Feat_Band_Props Micro_Spec Micro_Props.
Import ListNotations.
Open Scope R_scope.

(** ** C64 *)
Lemma edge_nth : forall h l o c w s out i, edge_spread h l o c w s = Ok out ->
  nth i out NaN = NaN \/ ((Z.to_nat w <= S i)%nat /\ (1 <= w)%Z /\ exists W : list num -> list num,
     (forall x, W x = map (fun j => nth (S i - Z.to_nat w + j) x NaN) (seq 0 (Z.to_nat w))) /\ nth i out NaN = edge_window (W o) (W h) (W l) (W c) s).
Proof.
  intros h l o c w s out i H. unfold edge_spread in H. destruct (Z.ltb_spec w 1) as [|Hw]; [discriminate|]. injection H as <-.
  set (n := Nat.max (Nat.max (length o) (length h)) (Nat.max (length l) (length c))). destruct (Nat.lt_ge_cases i n) as [Hi|Hi]; [|left; apply nth_overflow; rewrite map_length, seq_length; auto].
  rewrite nth_seq_map' by auto. destruct (Nat.ltb_spec (S i) (Z.to_nat w)); [left; reflexivity|]. right. split; [auto|]. split; [auto|].
  exists (fun x => map (fun j => nth (S i - Z.to_nat w + j) x NaN) (seq 0 (Z.to_nat w))). split; [reflexivity|].
  assert (G : forall x, skipn (S i - Z.to_nat w) (firstn (S i) (map (fun i => nth i x NaN) (seq 0 n))) = map (fun j => nth (S i - Z.to_nat w + j) x NaN) (seq 0 (Z.to_nat w))).
  { intros x. destruct (window_list (map (fun i => nth i x NaN) (seq 0 n)) (Z.to_nat w) i) as [L N]; [lia|rewrite map_length, seq_length; auto|].
    apply list_ext; [rewrite L, map_length, seq_length; auto|]. rewrite L. intros j Hj. rewrite N by auto. rewrite !nth_seq_map' by lia. reflexivity. }
  rewrite <- (G o), <- (G h), <- (G l), <- (G c). reflexivity.
Qed.
(** the unsigned estimate is the absolute value of the signed one; without a sign it is what it is *)
Theorem C64_sign : forall h l o c w, (exists u s, edge_spread h l o c w false = Ok u /\ edge_spread h l o c w true = Ok s /\ u = map nabs s) \/
  ((w < 1)%Z /\ edge_spread h l o c w false = Raise ValueError /\ edge_spread h l o c w true = Raise ValueError).
Proof.
  intros h l o c w. unfold edge_spread. destruct (Z.ltb_spec w 1); [right; auto|]. left. eexists _, _. split; [reflexivity|]. split; [reflexivity|]. rewrite map_map. apply map_ext. intros i.
  destruct (Nat.ltb _ _); [reflexivity|]. unfold edge_window. destruct (edge_s2 _ _ _ _) as [s2|]; [|reflexivity]. cbn [andb].
  destruct s2 as [r| | |]; try reflexivity. cbn [nabs]. rewrite nsqrt_fin by apply Rabs_pos. cbn [nltb]. pose proof (sqrt_pos (Rabs r)). destruct (rltb r 0); cbn [nneg nabs]; f_equal; [rewrite Rabs_Ropp|]; symmetry; apply Rabs_pos_eq; auto.
Qed.
Definition allfin (l : list num) : Prop := exists v, l = map Fin v.
Lemma allfin_map2 : forall f a b, (forall x y, exists z, f (Fin x) (Fin y) = Fin z) -> allfin a -> allfin b -> allfin (map2 f a b).
Proof.
  intros f a b H [v ->] [u ->]. unfold map2. revert u. induction v as [|x v IH]; intros [|y u]; try (exists []; reflexivity). destruct (IH u) as [z Z]. destruct (H x y) as [r Hr]. exists (r :: z). cbn [map combine fst snd]. cbn in Z. rewrite Z, Hr. reflexivity.
Qed.
Lemma len_map2 : forall A B C (f : A -> B -> C) a b, length (map2 f a b) = Nat.min (length a) (length b).
Proof. intros. unfold map2. rewrite map_length, combine_length. reflexivity. Qed.
Lemma allfin_tl : forall l, allfin l -> allfin (tl l). Proof. intros l [v ->]. exists (tl v). destruct v; reflexivity. Qed.
Lemma allfin_rl : forall l, allfin l -> allfin (removelast l).
Proof. intros l [v ->]. exists (removelast v). induction v as [|x [|y v] IH]; try reflexivity. cbn [map removelast] in *. rewrite IH. reflexivity. Qed.
Lemma allfin_mean : forall l, allfin l -> l <> [] -> exists m, nmean l = Fin m.
Proof. intros l [v ->] H. exists (rmean v). apply nmean_fin. intros E. apply H. rewrite E. reflexivity. Qed.
Lemma allfin_var : forall l, allfin l -> l <> [] -> exists m, nvar 0 l = Fin m /\ 0 <= m.
Proof. intros l [v ->] H. exists (rvar 0 v). assert (L : (0 < length v)%nat) by (destruct v; [exfalso; apply H; reflexivity|cbn; lia]). split; [apply nvar_fin; lia|apply rvar_nonneg; lia]. Qed.
Lemma nmean_nil : nmean [] = NaN. Proof. apply (agg_mean_nil). Qed.
Lemma allfin_b2n : forall l, allfin (map b2n l).
Proof. intros l. exists (map (fun b : bool => if b then 1 else 0) l). rewrite map_map. apply map_ext. intros []; reflexivity. Qed.
Lemma allfin_demean : forall (r : list num) (t : list bool) m p, allfin r -> p <> 0 -> allfin (map2 (fun x t => nsub x (ndiv (nmul (b2n t) (Fin m)) (Fin p))) r t).
Proof.
  intros r t m p [v ->] Hp. unfold map2. revert t. induction v as [|x v IH]; intros [|b t]; try (exists []; reflexivity). destruct (IH t) as [z Z]. cbn [map combine fst snd]. cbn in Z. rewrite Z.
  destruct b; cbn [b2n nmul]; rewrite ndiv_fin by auto; cbn [nsub nneg nadd]; eexists (_ :: z); reflexivity.
Qed.
Lemma bmean_cases : forall l, l <> [] -> exists p, bmean l = Fin p /\ 0 <= p.
Proof.
  intros l H. unfold bmean. destruct (allfin_b2n l) as [v E]. exists (rmean v). rewrite E. rewrite nmean_fin by (intros ->; destruct l; [congruence|discriminate]). split; [reflexivity|].
  unfold rmean, Rdiv. apply Rmult_le_pos; [|destruct v; [destruct l; [congruence|discriminate]|left; apply Rinv_0_lt_compat, lt_0_INR; cbn; lia]].
  apply rsum_nonneg. intros y Hy. assert (In (Fin y) (map b2n l)) as Hf by (rewrite E; apply in_map; auto). apply in_map_iff in Hf as (b & Hb & _). destruct b; cbn in Hb; injection Hb as <-; lra.
Qed.
Lemma nonempty_len : forall A (l : list A), (0 < length l)%nat -> l <> []. Proof. intros A [|x l] H; [cbn in H; lia|discriminate]. Qed.
Lemma len_tl : forall A (l : list A), length (tl l) = (length l - 1)%nat. Proof. intros A [|x l]; cbn; lia. Qed.
Lemma len_rl : forall A (l : list A), length (removelast l) = (length l - 1)%nat.
Proof. intros A. induction l as [|x [|y l] IH]; try reflexivity. change (removelast (x :: y :: l)) with (x :: removelast (y :: l)). cbn [length] in *. lia. Qed.
Lemma neqb_fin : forall a b, neqb (Fin a) (Fin b) = true <-> a = b.
Proof. intros a b. cbn. unfold reqb. destruct (Req_EM_T a b); split; intros; auto; discriminate. Qed.
(** a window of positive numbers: a finite estimate or none *)
Lemma edge_s2_fin : forall o h l c n, length o = S n -> length h = S n -> length l = S n -> length c = S n ->
  (forall x, In x (o ++ h ++ l ++ c) -> exists r, x = Fin r /\ 0 < r) -> edge_s2 o h l c = None \/ exists x, edge_s2 o h l c = Some x /\ fin_or_nan x.
Proof.
  intros o h l c n Lo Lh Ll Lc P.
  assert (F : forall z, (forall x, In x z -> exists r, x = Fin r /\ 0 < r) -> allfin (map nlog z)).
  { induction z as [|x z IH]; intros H; [exists []; reflexivity|]. destruct (IH ltac:(intros y Hy; apply H; right; auto)) as [v E]. destruct (H x ltac:(left; auto)) as (r & -> & R).
    exists (ln r :: v). cbn [map]. rewrite E, nlog_fin by auto. reflexivity. }
  assert (Fo : allfin (map nlog o)) by (apply F; intros x Hx; apply P; rewrite !in_app_iff; auto).
  assert (Fh : allfin (map nlog h)) by (apply F; intros x Hx; apply P; rewrite !in_app_iff; auto).
  assert (Fl : allfin (map nlog l)) by (apply F; intros x Hx; apply P; rewrite !in_app_iff; auto).
  assert (Fc : allfin (map nlog c)) by (apply F; intros x Hx; apply P; rewrite !in_app_iff; auto).
  assert (LLo : length (map nlog o) = S n) by (rewrite map_length; auto). assert (LLh : length (map nlog h) = S n) by (rewrite map_length; auto).
  assert (LLl : length (map nlog l) = S n) by (rewrite map_length; auto). assert (LLc : length (map nlog c) = S n) by (rewrite map_length; auto).
  unfold edge_s2. cbv zeta. revert Fo Fh Fl Fc LLo LLh LLl LLc. generalize (map nlog o) (map nlog h) (map nlog l) (map nlog c). clear.
  intros po ph pl pc Fo Fh Fl Fc Lo Lh Ll Lc.
  assert (Fm : allfin (map2 (fun x y => ndiv (nadd x y) (Fin 2)) ph pl)) by (apply allfin_map2; auto; intros x y; eexists; cbn [nadd]; apply ndiv_fin; lra).
  assert (Lm : length (map2 (fun x y => ndiv (nadd x y) (Fin 2)) ph pl) = S n) by (rewrite len_map2; lia).
  revert Fm Lm. generalize (map2 (fun x y => ndiv (nadd x y) (Fin 2)) ph pl). intros pm Fm Lm.
  assert (SUB : forall x y, exists z, nsub (Fin x) (Fin y) = Fin z) by (intros; eexists; reflexivity).
  set (tau := map2 orb _ _). assert (LT : length tau = n) by (unfold tau; rewrite !len_map2, !len_tl, len_rl; lia).
  set (f1 := map2 andb (map2 nne (tl po) (tl ph)) tau). set (f2 := map2 andb (map2 nne (tl po) (tl pl)) tau).
  set (f3 := map2 andb (map2 nne (removelast pc) (removelast ph)) tau). set (f4 := map2 andb (map2 nne (removelast pc) (removelast pl)) tau).
  assert (L1 : length f1 = n) by (unfold f1; rewrite !len_map2, !len_tl; lia). assert (L2 : length f2 = n) by (unfold f2; rewrite !len_map2, !len_tl; lia).
  assert (L3 : length f3 = n) by (unfold f3; rewrite !len_map2, !len_rl; lia). assert (L4 : length f4 = n) by (unfold f4; rewrite !len_map2, !len_rl; lia).
  set (r1 := map2 nsub (tl pm) (tl po)). set (r2 := map2 nsub (tl po) (removelast pm)). set (r3 := map2 nsub (tl pm) (removelast pc)).
  set (r4 := map2 nsub (removelast pc) (removelast pm)). set (r5 := map2 nsub (tl po) (removelast pc)).
  assert (R1 : length r1 = n) by (unfold r1; rewrite len_map2, !len_tl; lia). assert (R2 : length r2 = n) by (unfold r2; rewrite len_map2, len_tl, len_rl; lia).
  assert (R3 : length r3 = n) by (unfold r3; rewrite len_map2, len_tl, len_rl; lia). assert (R4 : length r4 = n) by (unfold r4; rewrite len_map2, !len_rl; lia).
  assert (R5 : length r5 = n) by (unfold r5; rewrite len_map2, len_tl, len_rl; lia).
  assert (F1 : allfin r1) by (apply allfin_map2; auto using allfin_tl, allfin_rl). assert (F2 : allfin r2) by (apply allfin_map2; auto using allfin_tl, allfin_rl).
  assert (F3 : allfin r3) by (apply allfin_map2; auto using allfin_tl, allfin_rl). assert (F4 : allfin r4) by (apply allfin_map2; auto using allfin_tl, allfin_rl).
  assert (F5 : allfin r5) by (apply allfin_map2; auto using allfin_tl, allfin_rl).
  clearbody tau f1 f2 f3 f4 r1 r2 r3 r4 r5. clear - LT L1 L2 L3 L4 R1 R2 R3 R4 R5 F1 F2 F3 F4 F5 SUB.
  destruct (Nat.eq_dec n 0) as [Z|NZ].
  { rewrite Z in *. apply length_zero_iff_nil in LT, L1, L2, L3, L4, R1, R2, R3, R4, R5. rewrite LT, L1, L2, L3, L4, R1, R2, R3, R4, R5. right. unfold bmean, map2. cbn [map combine nadd]. rewrite !nmean_nil. cbn [nadd neqb orb]. eexists. split; [reflexivity|]. left. rewrite !nmul_nan_r. apply ndiv_nan_l. }
  assert (NE : forall A (x : list A), length x = n -> x <> []) by (intros A x Hx; apply nonempty_len; lia).
  destruct (bmean_cases tau (NE _ _ LT)) as (pt & Ept & _). destruct (bmean_cases f1 (NE _ _ L1)) as (q1 & E1 & _). destruct (bmean_cases f2 (NE _ _ L2)) as (q2 & E2 & _).
  destruct (bmean_cases f3 (NE _ _ L3)) as (q3 & E3 & _). destruct (bmean_cases f4 (NE _ _ L4)) as (q4 & E4 & _). rewrite Ept, E1, E2, E3, E4. cbn [nadd].
  destruct (neqb (Fin pt) (Fin 0)) eqn:B1; [left; reflexivity|]. destruct (neqb (Fin (q1 + q2)) (Fin 0)) eqn:B2; [left; reflexivity|]. destruct (neqb (Fin (q3 + q4)) (Fin 0)) eqn:B3; [left; reflexivity|].
  assert (N1 : pt <> 0) by (intros X; apply neqb_fin in X; congruence). assert (N2 : q1 + q2 <> 0) by (intros X; apply neqb_fin in X; congruence). assert (N3 : q3 + q4 <> 0) by (intros X; apply neqb_fin in X; congruence).
  cbn [orb]. right. eexists. split; [reflexivity|].
  destruct (allfin_mean r1 F1 (NE _ _ R1)) as [m1 ->]. destruct (allfin_mean r3 F3 (NE _ _ R3)) as [m3 ->]. destruct (allfin_mean r5 F5 (NE _ _ R5)) as [m5 ->].
  rewrite !ndiv_fin by auto.
  pose proof (allfin_demean r1 tau m1 pt F1 N1) as D1. pose proof (allfin_demean r3 tau m3 pt F3 N1) as D3. pose proof (allfin_demean r5 tau m5 pt F5 N1) as D5.
  assert (LD : forall r m, length r = n -> length (map2 (fun x t => nsub x (ndiv (nmul (b2n t) (Fin m)) (Fin pt))) r tau) = n) by (intros; rewrite len_map2; lia).
  pose proof (LD r1 m1 R1) as LD1. pose proof (LD r3 m3 R3) as LD3. pose proof (LD r5 m5 R5) as LD5. clear LD.
  revert D1 D3 D5 LD1 LD3 LD5. generalize (map2 (fun x t => nsub x (ndiv (nmul (b2n t) (Fin m1)) (Fin pt))) r1 tau) (map2 (fun x t => nsub x (ndiv (nmul (b2n t) (Fin m3)) (Fin pt))) r3 tau) (map2 (fun x t => nsub x (ndiv (nmul (b2n t) (Fin m5)) (Fin pt))) r5 tau).
  intros d1 d3 d5 D1 D3 D5 LD1 LD3 LD5.
  assert (T : forall k d r, allfin d -> allfin r -> allfin (map2 (fun x y => nmul (nmul (Fin k) x) y) d r)) by (intros; apply allfin_map2; auto; intros; eexists; reflexivity).
  set (x1 := map2 nsub _ (map2 (fun x y => nmul (nmul (Fin (4 / (q3 + q4))) x) y) d3 r4)). set (x2 := map2 nsub _ (map2 (fun x y => nmul (nmul (Fin (4 / (q3 + q4))) x) y) d5 r4)).
  assert (X1 : allfin x1) by (unfold x1; apply allfin_map2; auto). assert (X2 : allfin x2) by (unfold x2; apply allfin_map2; auto).
  assert (LX1 : length x1 = n) by (unfold x1; rewrite !len_map2; lia). assert (LX2 : length x2 = n) by (unfold x2; rewrite !len_map2; lia).
  destruct (allfin_mean x1 X1 (NE _ _ LX1)) as [e1 ->]. destruct (allfin_mean x2 X2 (NE _ _ LX2)) as [e2 ->]. destruct (allfin_var x1 X1 (NE _ _ LX1)) as (v1 & -> & V1). destruct (allfin_var x2 X2 (NE _ _ LX2)) as (v2 & -> & V2).
  cbn [nmul nadd]. destruct (Req_dec (v1 + v2) 0) as [Z|Z]; [|right; eexists; apply ndiv_fin; auto].
  left. assert (v1 = 0) by lra. assert (v2 = 0) by lra. subst. replace (0 * e1 + 0 * e2) with 0 by ring. replace (0 + 0) with 0 by ring. apply zero_div_zero.
Qed.
(** positive prices everywhere: the unsigned estimate is a number >= 0 or NaN *)
Theorem C64_nonnegative : forall h l o c w out i, length l = length h -> length o = length h -> length c = length h -> positive h -> positive l -> positive o -> positive c ->
  edge_spread h l o c w false = Ok out -> nonneg (nth i out NaN).
Proof.
  intros h l o c w out i L1 L2 L3 Ph Pl Po Pc H. pose proof (proj1 (firstn_edge _ _ _ _ _ _ 0 _ H)) as LO.
  destruct (Nat.lt_ge_cases i (length out)) as [Hi|Hi]; [|left; apply nth_overflow; auto]. rewrite L1, L2, L3 in LO.
  destruct (edge_nth _ _ _ _ _ _ _ i H) as [->|(W1 & W2 & W & HW & ->)]; [left; reflexivity|]. unfold edge_window.
  destruct (Z.to_nat w) as [|n] eqn:En; [lia|].
  assert (LW : forall x, length (W x) = S n) by (intros; rewrite HW, map_length, seq_length; auto).
  assert (IW : forall z x, length z = length h -> positive z -> In x (W z) -> exists r, x = Fin r /\ 0 < r).
  { intros z x Lz P Hx. rewrite HW in Hx. apply in_map_iff in Hx as (j & <- & Hj). apply in_seq in Hj. apply P. lia. }
  destruct (edge_s2_fin (W o) (W h) (W l) (W c) n) as [->|(x & -> & [->|(r & ->)])]; auto.
  - intros x Hx. rewrite !in_app_iff in Hx. destruct Hx as [Hx|[Hx|[Hx|Hx]]]; [apply (IW o)|apply (IW h)|apply (IW l)|apply (IW c)]; auto.
  - left. reflexivity.
  - left. reflexivity.
  - cbn [nabs andb]. rewrite nsqrt_fin by apply Rabs_pos. right. eexists. split; [reflexivity|apply sqrt_pos].
Qed.
(** a window in which nothing moves has no estimate *)
Lemma map2_repeat : forall A B C (f : A -> B -> C) a b n, map2 f (repeat a n) (repeat b n) = repeat (f a b) n.
Proof. intros A B C f a b n. unfold map2. induction n as [|n IH]; [reflexivity|]. cbn [repeat combine map fst snd]. rewrite IH. reflexivity. Qed.
Lemma tl_repeat : forall A (a : A) n, tl (repeat a n) = repeat a (n - 1). Proof. intros A a [|n]; [reflexivity|]. cbn [repeat tl]. replace (S n - 1)%nat with n by lia. reflexivity. Qed.
Lemma rl_repeat : forall A (a : A) n, removelast (repeat a n) = repeat a (n - 1).
Proof. intros A a. induction n as [|[|n] IH]; try reflexivity. change (removelast (repeat a (S (S n)))) with (a :: removelast (repeat a (S n))). rewrite IH. replace (S (S n) - 1)%nat with (S n) by lia. cbn [repeat]. f_equal. f_equal. lia. Qed.
Lemma map_rep : forall A B (f : A -> B) a n, map f (repeat a n) = repeat (f a) n. Proof. intros. induction n; cbn; congruence. Qed.
Lemma bmean_false : forall n, bmean (repeat false n) = if Nat.eqb n 0 then NaN else Fin 0.
Proof.
  intros n. unfold bmean. rewrite map_rep. destruct n as [|n]; [apply nmean_nil|]. cbn [Nat.eqb b2n]. replace (repeat (Fin 0) (S n)) with (map Fin (repeat 0 (S n))) by apply map_rep.
  rewrite nmean_fin by discriminate. unfold rmean. f_equal. replace (rsum (repeat 0 (S n))) with 0; [unfold Rdiv; ring|]. symmetry. induction (S n) as [|m IH]; [reflexivity|]. unfold rsum in *. cbn [repeat fold_right]. rewrite IH. ring.
Qed.
Theorem C64_no_movement : forall h l o c w s out i p, (i < length h)%nat -> (1 <= w)%Z -> (Z.to_nat w <= S i)%nat -> 0 < p ->
  (forall j, (S i - Z.to_nat w <= j <= i)%nat -> nth j h NaN = Fin p /\ nth j l NaN = Fin p /\ nth j o NaN = Fin p /\ nth j c NaN = Fin p) ->
  edge_spread h l o c w s = Ok out -> nth i out NaN = NaN.
Proof.
  intros h l o c w s out i p Hi Hw Hwi Hp HF H. destruct (edge_nth _ _ _ _ _ _ _ i H) as [->|(W1 & W2 & W & HW & ->)]; [reflexivity|].
  set (n := Z.to_nat w) in *.
  assert (G : forall z, (forall j, (S i - n <= j <= i)%nat -> nth j z NaN = Fin p) -> W z = repeat (Fin p) n).
  { intros z Hz. rewrite HW. apply list_ext; [rewrite map_length, seq_length, repeat_length; auto|]. rewrite map_length, seq_length. intros j Hj. rewrite nth_seq_map' by auto. rewrite Hz by lia.
    rewrite (nth_indep _ NaN (Fin p)) by (rewrite repeat_length; auto). symmetry. apply nth_repeat. }
  rewrite !G by (intros j Hj; apply HF; auto). unfold edge_window, edge_s2. cbv zeta. rewrite !map_rep. rewrite nlog_fin by auto. rewrite !map2_repeat, !tl_repeat, !rl_repeat, !map2_repeat.
  assert (E : nne (Fin (ln p)) (Fin (ln p)) = false) by (unfold nne; rewrite (proj2 (neqb_fin (ln p) (ln p)) eq_refl); reflexivity). rewrite E. cbn [orb andb]. rewrite !bmean_false.
  destruct (Nat.eqb_spec (n - 1) 0) as [Z|NZ].
  - rewrite Z. unfold bmean, map2. cbn [repeat map combine nadd]. rewrite ?nmean_nil. cbn [nadd neqb orb]. rewrite ?nmul_nan_r. cbn [nadd]. rewrite ?ndiv_nan_l. destruct s; reflexivity.
  - cbn [nadd]. rewrite (proj2 (neqb_fin 0 0) eq_refl). reflexivity.
Qed.

(** ** C65 *)
Theorem C65_bulk_volume : forall cdf p v s out i, (forall x, x = NaN \/ within 0 1 (cdf x)) -> cdf NaN = NaN -> (forall j, (j < length v)%nat -> exists a, nth j v NaN = Fin a /\ 0 <= a) ->
  estimate_buy_volume cdf p v s = Ok out -> nth i out NaN = NaN \/ exists a b, nth i v NaN = Fin a /\ nth i out NaN = Fin b /\ 0 <= b <= a.
Proof.
  intros cdf p v s out i Hc Hn Hv H. unfold estimate_buy_volume in H. destruct (Nat.eqb (length _) (length v)) eqn:E.
  2:{ destruct (Nat.eqb_spec (length (lift2 ndiv (diff 1 p) s)) 1) as [E1|]; [|discriminate]. injection H as <-. left.
      rewrite nth_lift2 by reflexivity. rewrite nth_diff1, ndiv_nan_l, Hn. rewrite nth_map_nan by reflexivity. apply nmul_nan_r. }
  apply Nat.eqb_eq in E. injection H as <-. rewrite nth_lift2 by (rewrite ?Hn; reflexivity).
  destruct (Nat.lt_ge_cases i (length v)) as [Hi|Hi]; [|left; rewrite (nth_overflow v) by auto; apply nmul_nan_l].
  destruct (Hv i Hi) as (a & -> & A). rewrite nth_map_nan by auto. destruct (nth i (lift2 ndiv (diff 1 p) s) NaN) as [z| | |] eqn:EZ.
  - destruct (Hc (Fin z)) as [X|[->|(r & -> & R)]]; [discriminate|left; reflexivity|]. right. exists a, (a * r). split; [reflexivity|]. split; [reflexivity|nra].
  - rewrite Hn. left. reflexivity.
  - destruct (Hc PInf) as [X|[->|(r & -> & R)]]; [discriminate|left; reflexivity|]. right. exists a, (a * r). split; [reflexivity|]. split; [reflexivity|nra].
  - destruct (Hc NInf) as [X|[->|(r & -> & R)]]; [discriminate|left; reflexivity|]. right. exists a, (a * r). split; [reflexivity|]. split; [reflexivity|nra].
Qed.
(** the value at a row with numbers: volume times the CDF of the price change over sigma; the first row is NaN *)
Theorem C65_bulk_value : forall cdf p v s, length p = length v -> length s = length v -> cdf NaN = NaN -> exists out, estimate_buy_volume cdf p v s = Ok out /\ length out = length v
  /\ nth 0 out NaN = NaN
  /\ forall i a b x y, nth i p NaN = Fin a -> nth (S i) p NaN = Fin b -> nth (S i) s NaN = Fin x -> x <> 0 -> nth (S i) v NaN = Fin y -> nth (S i) out NaN = nmul (Fin y) (cdf (Fin ((b - a) / x))).
Proof.
  intros cdf p v s L1 L2 Hn. unfold estimate_buy_volume. rewrite (proj2 (Nat.eqb_eq _ _)) by (rewrite len_lift2, len_diff; lia). eexists. split; [reflexivity|]. split; [rewrite len_lift2, map_length, len_lift2, len_diff; lia|].
  assert (D : nmul NaN (cdf NaN) = NaN) by apply nmul_nan_l. split.
  - rewrite nth_lift2 by reflexivity. rewrite nth_map_nan by auto. rewrite nth_lift2 by reflexivity. rewrite nth_diff1. rewrite ndiv_nan_l, Hn. apply nmul_nan_r.
  - intros i a b x y Ea Eb Ex Nx Ey. rewrite nth_lift2 by reflexivity. rewrite nth_map_nan by auto. rewrite nth_lift2 by reflexivity. rewrite nth_diff1, Ea, Eb, Ex, Ey. unfold nsub. cbn [nneg nadd]. rewrite ndiv_fin by auto. reflexivity.
Qed.
Theorem C65_vpin : forall (v b : list R) (w : nat), length b = length v -> (1 <= w)%nat -> (forall j, (j < length v)%nat -> 0 < nth j v 0 /\ 0 <= nth j b 0 <= nth j v 0) ->
  exists out, vpin (map Fin v) (map Fin b) (Z.of_nat w) = Ok out /\ forall i, (i < length v)%nat ->
    ((S i < w)%nat -> nth i out NaN = NaN)
    /\ ((w <= S i)%nat -> let imbalance j := Rabs (nth j b 0 - (nth j v 0 - nth j b 0)) / nth j v 0 in
         nth i out NaN = Fin (sumn w (fun j => imbalance (S i - w + j)%nat) / INR w) /\ 0 <= sumn w (fun j => imbalance (S i - w + j)%nat) / INR w <= 1).
Proof.
  intros v b w L Hw H. unfold vpin. rewrite rolling_ok by lia. rewrite Nat2Z.id. eexists. split; [reflexivity|]. intros i Hi.
  set (I := fun j => Rabs (nth j b 0 - (nth j v 0 - nth j b 0)) / nth j v 0).
  assert (EI : forall j, (j < length v)%nat -> nth j (lift2 ndiv (map nabs (lift2 nsub (map Fin b) (lift2 nsub (map Fin v) (map Fin b)))) (map Fin v)) NaN = Fin (I j)).
  { intros j Hj. repeat first [rewrite nth_lift2 by reflexivity | rewrite nth_map_nan by reflexivity]. rewrite !nth_fin by lia. destruct (H j Hj) as [P _]. unfold nsub. cbn [nneg nadd nabs]. rewrite ndiv_fin by lra. reflexivity. }
  split.
  - intros X. apply roll_missing. left. auto.
  - intros X. cbv zeta. rewrite (roll_fun w agg_mean _ i I) by (try (autorewrite with lens); try lia; intros j Hj; apply EI; lia). rewrite mean_fun by auto. split; [reflexivity|].
    assert (B : forall j, (j < length v)%nat -> 0 <= I j <= 1).
    { intros j Hj. destruct (H j Hj) as [P B]. unfold I. assert (Q : - nth j v 0 <= nth j b 0 - (nth j v 0 - nth j b 0) <= nth j v 0) by lra. apply Rabs_le in Q. pose proof (Rabs_pos (nth j b 0 - (nth j v 0 - nth j b 0))) as A0.
      set (A := Rabs (nth j b 0 - (nth j v 0 - nth j b 0))) in *. assert (E : A / nth j v 0 * nth j v 0 = A) by (field; lra). set (q := A / nth j v 0) in *. split; nra. }
    assert (P : 0 < INR w) by (apply lt_0_INR; lia). assert (S0 : 0 <= sumn w (fun j => I (S i - w + j)%nat)) by (apply S_nonneg; intros j Hj; apply B; lia).
    assert (S1 : sumn w (fun j => I (S i - w + j)%nat) <= INR w).
    { eapply Rle_trans; [apply (S_le w _ (fun _ => 1)); intros j Hj; apply B; lia|]. clear. induction w as [|w IH]; [cbn; unfold sumn; cbn; lra|]. rewrite S_succ, S_INR. lra. }
    split; [unfold Rdiv; apply Rmult_le_pos; [auto|left; apply Rinv_0_lt_compat; auto]|]. apply (Rmult_le_reg_r (INR w)); [auto|]. unfold Rdiv. rewrite Rmult_assoc, Rinv_l by lra. rewrite Rmult_1_r, Rmult_1_l. exact S1.
Qed.

(** ** C66 *)
(** prices and volumes are positive numbers, one each per row *)
Definition market (p v : list R) : Prop := length v = length p /\ forall j, (j < length p)%nat -> 0 < nth j p 0 /\ 0 < nth j v 0.
Lemma sumn_nonneg_div : forall w f, (1 <= w)%nat -> (forall j, (j < w)%nat -> 0 <= f j) -> 0 <= sumn w f / INR w.
Proof. intros w f Hw H. unfold Rdiv. apply Rmult_le_pos; [apply S_nonneg; auto|left; apply Rinv_0_lt_compat, lt_0_INR; lia]. Qed.
(** general shape: a term per row j >= 1 that is a number f j when [ok j] and missing otherwise, nothing for the first row *)
Lemma lambda_shape : forall terms n (w : nat) f (ok : nat -> Prop) i, length terms = n -> (1 <= w)%nat -> (i < n)%nat -> nth 0 terms NaN = NaN ->
  (forall j, (S j < n)%nat -> ok (S j) -> nth (S j) terms NaN = Fin (f (S j)) /\ 0 <= f (S j)) -> (forall j, (S j < n)%nat -> ~ ok (S j) -> nth (S j) terms NaN = NaN) ->
  ((i < w)%nat -> nth i (roll w agg_mean terms) NaN = NaN)
  /\ ((w <= i)%nat -> (forall j, (i - w < j <= i)%nat -> ok j) -> nth i (roll w agg_mean terms) NaN = Fin (sumn w (fun j => f (S i - w + j)%nat) / INR w) /\ 0 <= sumn w (fun j => f (S i - w + j)%nat) / INR w)
  /\ (forall j, (i - w < j <= i)%nat -> (w <= i)%nat -> ~ ok j -> nth i (roll w agg_mean terms) NaN = NaN).
Proof.
  intros terms n w f ok i Ln Hw Hi H0 Hok Hno. split; [|split].
  - intros X. apply roll_missing. destruct (Nat.lt_ge_cases (S i) w) as [|W]; [left; auto|]. right. exists 0%nat. repeat split; try lia. rewrite H0. discriminate.
  - intros X A. rewrite (roll_fun w agg_mean terms i f).
    + rewrite mean_fun by auto. split; [reflexivity|]. apply sumn_nonneg_div; auto. intros j Hj. destruct (S i - w + j)%nat as [|k] eqn:E; [lia|]. apply Hok; [lia|]. apply A. lia.
    + lia.
    + lia.
    + intros j Hj. destruct (S i - w + j)%nat as [|k] eqn:E; [lia|]. apply Hok; [lia|]. apply A. lia.
  - intros j Hj X N. apply roll_missing. right. exists j. repeat split; try lia. destruct j as [|j]; [lia|]. rewrite Hno by (auto; lia). discriminate.
Qed.
Lemma nsign_pos : forall x, 0 < x -> nsign (Fin x) = Fin 1. Proof. intros x H. cbn. unfold rltb. destruct (Rlt_dec 0 x); [reflexivity|lra]. Qed.
Lemma nsign_neg : forall x, x < 0 -> nsign (Fin x) = Fin (-1). Proof. intros x H. cbn. unfold rltb. destruct (Rlt_dec 0 x); [lra|]. destruct (Rlt_dec x 0); [reflexivity|lra]. Qed.
Lemma nsign_zero : nsign (Fin 0) = Fin 0. Proof. cbn. unfold rltb. destruct (Rlt_dec 0 0); [lra|reflexivity]. Qed.
(** d / (sign d * y) for y > 0 *)
Lemma signed_ratio : forall d y, 0 < y -> (d <> 0 -> ndiv (Fin d) (nmul (nsign (Fin d)) (Fin y)) = Fin (Rabs d / y)) /\ (d = 0 -> ndiv (Fin d) (nmul (nsign (Fin d)) (Fin y)) = NaN).
Proof.
  intros d y Hy. split.
  - intros Hd. destruct (Rlt_or_le 0 d) as [P|P].
    + rewrite nsign_pos by auto. cbn [nmul]. rewrite ndiv_fin by lra. rewrite Rabs_pos_eq by lra. f_equal. field. lra.
    + rewrite nsign_neg by lra. cbn [nmul]. rewrite ndiv_fin by lra. rewrite Rabs_left by lra. f_equal. field. lra.
  - intros ->. rewrite nsign_zero. cbn [nmul]. rewrite Rmult_0_l. apply zero_div_zero.
Qed.
Lemma abs_ratio_nonneg : forall d y, 0 < y -> 0 <= Rabs d / y. Proof. intros. unfold Rdiv. apply Rmult_le_pos; [apply Rabs_pos|left; apply Rinv_0_lt_compat; auto]. Qed.
Lemma diff_fin : forall p j, (S j < length p)%nat -> nth (S j) (diff 1 (map Fin p)) NaN = Fin (nth (S j) p 0 - nth j p 0).
Proof. intros p j Hj. rewrite nth_diff1, !nth_fin by lia. reflexivity. Qed.
Lemma shift_fin : forall p j, (S j < length p)%nat -> nth (S j) (shift 1 (map Fin p)) NaN = Fin (nth j p 0).
Proof. intros p j Hj. rewrite nth_shift1, map_length, (proj2 (Nat.ltb_lt _ _) Hj). apply nth_fin. lia. Qed.
(** Kyle: the mean of |price change| / volume; an unchanged price in the window makes it NaN *)
Theorem C66_kyle : forall p v (w i : nat), market p v -> (1 <= w)%nat -> (i < length p)%nat -> exists out, kyle_lambda (map Fin p) (map Fin v) (Z.of_nat w) = Ok out /\
  let f j := Rabs (nth j p 0 - nth (j - 1) p 0) / nth j v 0 in
  ((i < w)%nat -> nth i out NaN = NaN)
  /\ ((w <= i)%nat -> (forall j, (i - w < j <= i)%nat -> nth j p 0 <> nth (j - 1) p 0) -> nth i out NaN = Fin (sumn w (fun j => f (S i - w + j)%nat) / INR w) /\ 0 <= sumn w (fun j => f (S i - w + j)%nat) / INR w)
  /\ (forall j, (i - w < j <= i)%nat -> (w <= i)%nat -> nth j p 0 = nth (j - 1) p 0 -> nth i out NaN = NaN).
Proof.
  intros p v w i [L M] Hw Hi. unfold kyle_lambda. rewrite rolling_ok by lia. rewrite Nat2Z.id. eexists. split; [reflexivity|]. cbv zeta.
  set (terms := lift2 ndiv (diff 1 (map Fin p)) (lift2 nmul (map nsign (diff 1 (map Fin p))) (map Fin v))).
  assert (T : forall j, nth j terms NaN = ndiv (nth j (diff 1 (map Fin p)) NaN) (nmul (nsign (nth j (diff 1 (map Fin p)) NaN)) (nth j (map Fin v) NaN))) by (intros j; unfold terms; repeat first [rewrite nth_lift2 by reflexivity | rewrite nth_map_nan by reflexivity]; reflexivity).
  destruct (lambda_shape terms (length p) w (fun j => Rabs (nth j p 0 - nth (j - 1) p 0) / nth j v 0) (fun j => nth j p 0 <> nth (j - 1) p 0) i) as (A & B & C).
  - unfold terms. rewrite !len_lift2, !map_length, len_diff, map_length. lia.
  - auto.
  - auto.
  - rewrite T, nth_diff1. apply ndiv_nan_l.
  - intros j Hj N. replace (S j - 1)%nat with j in * by lia. rewrite T, diff_fin, nth_fin by lia. destruct (M (S j) Hj) as [_ V]. split; [apply signed_ratio; auto; lra|apply abs_ratio_nonneg; auto].
  - intros j Hj N. replace (S j - 1)%nat with j in * by lia. rewrite T, diff_fin, nth_fin by lia. destruct (M (S j) Hj) as [_ V]. apply signed_ratio; auto. destruct (Req_dec (nth (S j) p 0) (nth j p 0)); [lra|contradiction].
  - split; [auto|]. split; [auto|]. intros j Hj X E. apply (C j Hj X). intros N. apply N. auto.
Qed.
(** Hasbrouck: the mean of |log return| / sqrt(dollar volume) *)
Theorem C66_hasbrouck : forall p v (w i : nat), market p v -> (1 <= w)%nat -> (i < length p)%nat -> exists out, hasbrouck_lambda (map Fin p) (map Fin v) (Z.of_nat w) = Ok out /\
  let f j := Rabs (ln (nth j p 0) - ln (nth (j - 1) p 0)) / sqrt (nth j v 0 * nth j p 0) in
  ((i < w)%nat -> nth i out NaN = NaN)
  /\ ((w <= i)%nat -> (forall j, (i - w < j <= i)%nat -> nth j p 0 <> nth (j - 1) p 0) -> nth i out NaN = Fin (sumn w (fun j => f (S i - w + j)%nat) / INR w) /\ 0 <= sumn w (fun j => f (S i - w + j)%nat) / INR w)
  /\ (forall j, (i - w < j <= i)%nat -> (w <= i)%nat -> nth j p 0 = nth (j - 1) p 0 -> nth i out NaN = NaN).
Proof.
  intros p v w i [L M] Hw Hi. unfold hasbrouck_lambda. rewrite rolling_ok by lia. rewrite Nat2Z.id. eexists. split; [reflexivity|]. cbv zeta.
  set (D := lift2 logratio (map Fin p) (shift 1 (map Fin p))). set (terms := lift2 ndiv D _).
  assert (T : forall j, nth j terms NaN = ndiv (nth j D NaN) (nmul (nsign (nth j D NaN)) (nsqrt (nmul (nth j (map Fin v) NaN) (nth j (map Fin p) NaN))))) by (intros j; unfold terms; repeat first [rewrite nth_lift2 by reflexivity | rewrite nth_map_nan by reflexivity]; reflexivity).
  assert (ED : forall j, (S j < length p)%nat -> nth (S j) D NaN = Fin (ln (nth (S j) p 0) - ln (nth j p 0))).
  { intros j Hj. unfold D. rewrite nth_lift2 by reflexivity. rewrite shift_fin, nth_fin by lia. apply logratio_fin; [apply (M (S j) Hj)|apply (M j ltac:(lia))]. }
  assert (Y : forall j, (S j < length p)%nat -> 0 < sqrt (nth (S j) v 0 * nth (S j) p 0)) by (intros j Hj; destruct (M (S j) Hj); apply sqrt_lt_R0, Rmult_lt_0_compat; auto).
  assert (LNE : forall j, (S j < length p)%nat -> ln (nth (S j) p 0) - ln (nth j p 0) = 0 <-> nth (S j) p 0 = nth j p 0).
  { intros j Hj. destruct (M (S j) Hj). destruct (M j ltac:(lia)). split; intros E; [apply ln_inv; auto; lra|rewrite E; ring]. }
  destruct (lambda_shape terms (length p) w (fun j => Rabs (ln (nth j p 0) - ln (nth (j - 1) p 0)) / sqrt (nth j v 0 * nth j p 0)) (fun j => nth j p 0 <> nth (j - 1) p 0) i) as (A & B & C).
  - unfold terms, D. rewrite !len_lift2, !map_length, !len_lift2, len_shift, !map_length. lia.
  - auto.
  - auto.
  - rewrite T. unfold D. rewrite nth_lift2 by reflexivity. rewrite nth_shift1. unfold logratio. rewrite ndiv_nan_r. apply ndiv_nan_l.
  - intros j Hj N. replace (S j - 1)%nat with j in * by lia. rewrite T, ED, !nth_fin by lia. cbn [nmul]. destruct (M (S j) Hj). rewrite nsqrt_fin by (apply Rmult_le_pos; lra). split; [apply signed_ratio; auto; intros E; apply LNE in E; auto|apply abs_ratio_nonneg; auto].
  - intros j Hj N. replace (S j - 1)%nat with j in * by lia. rewrite T, ED, !nth_fin by lia. cbn [nmul]. destruct (M (S j) Hj). rewrite nsqrt_fin by (apply Rmult_le_pos; lra). apply signed_ratio; auto. apply LNE; auto. destruct (Req_dec (nth (S j) p 0) (nth j p 0)); [auto|contradiction].
  - split; [auto|]. split; [auto|]. intros j Hj X E. apply (C j Hj X). intros N. apply N. auto.
Qed.
Lemma ffill_fin : forall v, ffill (map Fin v) = map Fin v.
Proof. intros v. unfold ffill. generalize NaN. induction v as [|x v IH]; intros l; [reflexivity|]. cbn [map ffill_from is_nan]. rewrite IH. reflexivity. Qed.
(** Amihud: the mean of |return| / dollar volume, defined for unchanged prices, too *)
Theorem C66_amihud : forall p v (w i : nat), market p v -> (1 <= w)%nat -> (i < length p)%nat -> exists out, amihud_lambda (map Fin p) (map Fin v) (Z.of_nat w) = Ok out /\
  let f j := Rabs (nth j p 0 / nth (j - 1) p 0 - 1) / (nth j v 0 * nth j p 0) in
  ((i < w)%nat -> nth i out NaN = NaN)
  /\ ((w <= i)%nat -> nth i out NaN = Fin (sumn w (fun j => f (S i - w + j)%nat) / INR w) /\ 0 <= sumn w (fun j => f (S i - w + j)%nat) / INR w).
Proof.
  intros p v w i [L M] Hw Hi. unfold amihud_lambda. rewrite rolling_ok by lia. rewrite Nat2Z.id. eexists. split; [reflexivity|]. cbv zeta.
  assert (PC : pct_change (map Fin p) = map (fun r => nsub r (Fin 1)) (lift2 ndiv (map Fin p) (shift 1 (map Fin p)))) by (unfold pct_change; cbv zeta; rewrite ffill_fin; reflexivity). rewrite PC.
  set (terms := lift2 ndiv _ _).
  assert (T : forall j, nth j terms NaN = ndiv (nabs (nsub (ndiv (nth j (map Fin p) NaN) (nth j (shift 1 (map Fin p)) NaN)) (Fin 1))) (nmul (nth j (map Fin v) NaN) (nth j (map Fin p) NaN))) by (intros j; unfold terms; repeat first [rewrite nth_lift2 by reflexivity | rewrite nth_map_nan by reflexivity]; reflexivity).
  destruct (lambda_shape terms (length p) w (fun j => Rabs (nth j p 0 / nth (j - 1) p 0 - 1) / (nth j v 0 * nth j p 0)) (fun _ => True) i) as (A & B & C).
  - unfold terms. rewrite !len_lift2, !map_length, !len_lift2, len_shift, !map_length. lia.
  - auto.
  - auto.
  - rewrite T, nth_shift1, ndiv_nan_r. apply ndiv_nan_l.
  - intros j Hj _. replace (S j - 1)%nat with j in * by lia. rewrite T, shift_fin, !nth_fin by lia. destruct (M (S j) Hj). destruct (M j ltac:(lia)). assert (0 < nth (S j) v 0 * nth (S j) p 0) by (apply Rmult_lt_0_compat; auto).
    rewrite ndiv_fin by lra. unfold nsub. cbn [nneg nadd nabs nmul]. rewrite ndiv_fin by lra. split; [reflexivity|apply abs_ratio_nonneg; auto].
  - intros j Hj N. exfalso. apply N. exact I.
  - split; [auto|]. intros X. apply B; auto.
Qed.

(** ** C67 *)
(** change of the logarithm of the price at row j *)
Definition log_change (p : list R) (j : nat) : R := ln (nth j p 0) - ln (nth (j - 1) p 0).
(** sample covariance of n pairs *)
Definition sample_cov (n : nat) (x y : nat -> R) : R := let mx := sumn n x / INR n in let my := sumn n y / INR n in sumn n (fun j => (x j - mx) * (y j - my)) / INR (n - 1).
Lemma rolling_cov_at : forall (w : nat) xs ys i, (i < Nat.max (length xs) (length ys))%nat -> exists out, rolling_cov (Z.of_nat w) xs ys = Ok out /\
  ((forall x y, window_is xs w i x -> window_is ys w i y -> nth i out NaN = agg_cov x y) /\ ((forall x, ~ window_is xs w i x) \/ (forall y, ~ window_is ys w i y) -> nth i out NaN = NaN)).
Proof.
  intros w xs ys i Hi. unfold rolling_cov. rewrite (proj2 (Z.ltb_ge _ _)) by lia. rewrite Nat2Z.id. eexists. split; [reflexivity|]. set (n := Nat.max (length xs) (length ys)) in *. rewrite nth_seq_map' by auto. cbv beta.
  assert (PW : forall l v, window_is (map (fun i => nth i l NaN) (seq 0 n)) w i v <-> window_is l w i v).
  { intros l v. split; intros (A & B & C); (split; [auto|split; [auto|]]); intros j Hj; specialize (C j Hj); rewrite nth_seq_map' in * by lia; auto. }
  assert (FW : forall l, (w <= S i)%nat -> forall v, finite (skipn (S i - w) (firstn (S i) (map (fun i => nth i l NaN) (seq 0 n)))) = Some v <-> window_is l w i v).
  { intros l W v. rewrite <- PW. set (z := map (fun i => nth i l NaN) (seq 0 n)). assert (LZ : (i < length z)%nat) by (unfold z; rewrite map_length, seq_length; auto). split.
    - intros E. destruct (window_list z w i W LZ) as [L1 N1]. apply finite_some in E. split; [auto|]. rewrite E, map_length in L1. split; [auto|]. intros j Hj. rewrite <- N1 by auto. rewrite E. rewrite nth_fin by lia. reflexivity.
    - intros V. pose proof (roll_at_window w (fun v => nsum (map Fin v)) z i v LZ V) as _. destruct (window_list z w i W LZ) as [L1 N1]. destruct V as (A & B & C).
      replace (skipn (S i - w) (firstn (S i) z)) with (map Fin v); [apply finite_map|]. apply list_ext; [rewrite map_length; congruence|]. rewrite map_length. intros j Hj. rewrite N1, C, nth_fin by lia. reflexivity. }
  destruct (Nat.ltb_spec (S i) w) as [W|W].
  - split; [intros x y (A & _); lia|reflexivity].
  - split.
    + intros x y Hx Hy. apply FW in Hx; [|auto]. apply FW in Hy; [|auto]. rewrite Hx, Hy. reflexivity.
    + intros [N|N]; destruct (finite (skipn (S i - w) (firstn (S i) (map (fun i => nth i xs NaN) (seq 0 n))))) as [x|] eqn:Ex; auto.
      * exfalso. apply (N x). apply FW; auto.
      * destruct (finite (skipn (S i - w) (firstn (S i) (map (fun i => nth i ys NaN) (seq 0 n))))) as [y|] eqn:Ey; auto. exfalso. apply (N y). apply FW; auto.
Qed.
Lemma combine_fun : forall n (f g : nat -> R) s, combine (map f (seq s n)) (map g (seq s n)) = map (fun j => (f j, g j)) (seq s n).
Proof. induction n as [|n IH]; intros f g s; [reflexivity|]. cbn [seq map combine]. rewrite IH. reflexivity. Qed.
Lemma sumn_const : forall n c, sumn n (fun _ => c) = INR n * c. Proof. intros n c. induction n as [|n IH]; [unfold sumn; cbn; ring|rewrite S_succ, S_INR, IH; ring]. Qed.
Lemma agg_cov_fun : forall n f g, (2 <= n)%nat -> agg_cov (map f (seq 0 n)) (map g (seq 0 n)) = Fin (sample_cov n f g).
Proof.
  intros n f g Hn. unfold agg_cov. rewrite combine_fun, map_map. cbn [fst snd]. rewrite !mean_fun by lia. rewrite map_length, seq_length. unfold nofnat, nsub. cbn [nmul nneg nadd].
  assert (N1 : INR (n - 1) = INR n - 1) by (rewrite minus_INR by lia; reflexivity). assert (P : 0 < INR (n - 1)) by (apply lt_0_INR; lia).
  rewrite ndiv_fin by lra. cbn [nmul]. f_equal. unfold sample_cov. cbv zeta. set (mx := sumn n f / INR n). set (my := sumn n g / INR n).
  assert (E : sumn n (fun j => (f j - mx) * (g j - my)) = sumn n (fun j => f j * g j) - INR n * mx * my).
  { rewrite (S_ext n _ (fun j => f j * g j + (- my * f j + (- mx * g j + mx * my)))) by (intros; ring). rewrite !S_plus, !S_scal.
    rewrite sumn_const.
    assert (EX : sumn n f = INR n * mx) by (unfold mx; field; lra). assert (EY : sumn n g = INR n * my) by (unfold my; field; lra). rewrite EX, EY. ring. }
  rewrite E. rewrite N1. replace (INR n + - (1)) with (INR n - 1) by ring. field. lra.
Qed.
Lemma agg_cov_one : forall x y, agg_cov [x] [y] = NaN.
Proof.
  intros x y. unfold agg_cov. cbn [combine map fst snd length]. rewrite !agg_mean_fin by discriminate. unfold rmean, rsum, nofnat, nsub. cbn [fold_right length INR nmul nneg nadd].
  replace ((x * y + 0) / 1 + - ((x + 0) / 1 * ((y + 0) / 1))) with 0 by field. replace (1 + - (1)) with 0 by ring.
  assert (D : ndiv (Fin 1) (Fin 0) = PInf) by (cbn; unfold reqb; destruct (Req_EM_T 0 0); [|lra]; unfold sgn_inf, rltb; destruct (Rlt_dec 0 1); [reflexivity|lra]). rewrite D. cbn. unfold sgn_inf, rltb. destruct (Rlt_dec 0 0); [lra|reflexivity].
Qed.
(** twice the square root of the absolute covariance of successive log price changes; undefined for the first w+1 rows and for w = 1 *)
Theorem C67_roll_measure : forall p (w i : nat), (forall j, (j < length p)%nat -> 0 < nth j p 0) -> (1 <= w)%nat -> (i < length p)%nat -> exists out, roll_measure (map Fin p) (Z.of_nat w) = Ok out /\
  ((i <= w)%nat \/ (w = 1)%nat -> nth i out NaN = NaN)
  /\ ((2 <= w)%nat -> (w < i)%nat -> nth i out NaN = Fin (2 * sqrt (Rabs (sample_cov w (fun j => log_change p (S i - w + j)) (fun j => log_change p (i - w + j)))))).
Proof.
  intros p w i HP Hw Hi. unfold roll_measure. set (D := diff 1 (map nlog (map Fin p))).
  assert (LD : length D = length p) by (unfold D; rewrite len_diff, !map_length; auto).
  assert (LNF : forall j, (j < length p)%nat -> nth j (map nlog (map Fin p)) NaN = Fin (ln (nth j p 0))) by (intros j Hj; rewrite nth_map_nan by reflexivity; rewrite nth_fin by auto; apply nlog_fin; auto).
  assert (D0 : nth 0 D NaN = NaN) by (unfold D; rewrite nth_diff1; reflexivity).
  assert (DS : forall j, (S j < length p)%nat -> nth (S j) D NaN = Fin (log_change p (S j))).
  { intros j Hj. unfold D. rewrite nth_diff1, !LNF by lia. unfold log_change. replace (S j - 1)%nat with j by lia. reflexivity. }
  assert (S0 : forall j, (j < 2)%nat -> nth j (shift 1 D) NaN = NaN). { intros [|[|j]] Hj; [rewrite nth_shift1; reflexivity| |lia]. rewrite nth_shift1. destruct (Nat.ltb _ _); [apply D0|reflexivity]. }
  assert (SS : forall j, (S (S j) < length p)%nat -> nth (S (S j)) (shift 1 D) NaN = Fin (log_change p (S j))). { intros j Hj. rewrite nth_shift1, LD, (proj2 (Nat.ltb_lt _ _) Hj). apply DS. lia. }
  destruct (rolling_cov_at w D (shift 1 D) i ltac:(rewrite LD; lia)) as (out & E & C1 & C2). rewrite E. cbn [bind]. eexists. split; [reflexivity|]. rewrite nth_map_nan by reflexivity. split.
  - intros [X|X].
    + rewrite C2; [reflexivity|]. right. intros y (A & B & C). destruct (Nat.lt_ge_cases w (S i)) as [W|W].
      * assert (i = w) by lia. specialize (C 0%nat ltac:(lia)). rewrite S0 in C by lia. discriminate.
      * specialize (C 0%nat ltac:(lia)). rewrite S0 in C by lia. discriminate.
    + subst w. destruct (Nat.le_gt_cases i 1) as [I1|I1].
      * rewrite C2; [reflexivity|]. right. intros y (A & B & C). specialize (C 0%nat ltac:(lia)). rewrite S0 in C by lia. discriminate.
      * destruct i as [|[|i]]; try lia.
        rewrite (C1 [log_change p (S (S i))] [log_change p (S i)]); [rewrite agg_cov_one; reflexivity| |]; (split; [lia|split; [reflexivity|intros [|j] Hj; [|lia]]]); replace (S (S (S i)) - 1 + 0)%nat with (S (S i)) by lia; [apply DS|apply SS]; lia.
  - intros W2 WI.
    rewrite (C1 (map (fun j => log_change p (S i - w + j)) (seq 0 w)) (map (fun j => log_change p (i - w + j)) (seq 0 w))).
    + rewrite agg_cov_fun by auto. cbn [nabs]. rewrite nsqrt_fin by apply Rabs_pos. reflexivity.
    + apply (window_fun D w i (log_change p)); [lia|]. intros j Hj. destruct (S i - w + j)%nat as [|k] eqn:Ek; [lia|]. apply DS. lia.
    + replace (map (fun j => log_change p (i - w + j)) (seq 0 w)) with (map (fun j => (fun q => log_change p (q - 1)) (S i - w + j)%nat) (seq 0 w)) by (apply map_ext; intros j; f_equal; lia).
      apply (window_fun (shift 1 D) w i (fun q => log_change p (q - 1))); [lia|]. intros j Hj. destruct (S i - w + j)%nat as [|[|k]] eqn:Ek; [lia|lia|]. rewrite SS by lia. f_equal.
Qed.
(** the impact is the ratio of the measure and the dollar volume *)
Theorem C67_roll_impact : forall p v w out, roll_impact p v w = Ok out -> exists m, roll_measure p w = Ok m /\ forall i, nth i out NaN = ndiv (nth i m NaN) (nmul (nth i v NaN) (nth i p NaN)).
Proof. intros p v w out H. unfold roll_impact in H. unbind H. injection H as <-. exists a. split; [auto|]. intros i. repeat rewrite nth_lift2 by reflexivity. reflexivity. Qed.

(** ** non-trivial instances *)
Example C64_example_bars : positive (map Fin [3; 4; 3]) /\ exists u, edge_spread (map Fin [3; 4; 3]) (map Fin [1; 2; 1]) (map Fin [2; 3; 2]) (map Fin [3; 2; 2]) 3 false = Ok u.
Proof. split; [intros [|[|[|i]]] Hi; cbn [map nth]; try (eexists; split; [reflexivity|lra]); cbn in Hi; lia|]. eexists. reflexivity. Qed.
Example C65_example : exists out, vpin (map Fin [4; 2; 5]) (map Fin [3; 1; 5]) 2 = Ok out /\ nth 0 out NaN = NaN /\ nth 1 out NaN = Fin (1/4) /\ nth 2 out NaN = Fin (1/2).
Proof.
  destruct (C65_vpin [4; 2; 5] [3; 1; 5] 2 eq_refl ltac:(lia)) as (out & E & H).
  { intros [|[|[|j]]] Hj; cbn [nth]; try lra. cbn in Hj. lia. }
  exists out. split; [exact E|]. split; [apply (H 0%nat); cbn; lia|]. destruct (H 1%nat ltac:(cbn; lia)) as [_ H1]. destruct (H 2%nat ltac:(cbn; lia)) as [_ H2]. specialize (H1 ltac:(lia)). specialize (H2 ltac:(lia)). cbv zeta in *.
  unfold sumn in *. cbn [seq map rsum fold_right nth Nat.sub Nat.add INR] in *. destruct H1 as [-> _]. destruct H2 as [-> _].
  replace (3 - (4 - 3)) with 2 by ring. replace (1 - (2 - 1)) with 0 by ring. replace (5 - (5 - 5)) with 5 by ring. rewrite Rabs_R0, !Rabs_pos_eq by lra. split; f_equal; field.
Qed.
Example C65_bulk_example : exists out, estimate_buy_volume (fun x => match x with NaN => NaN | _ => Fin (1/2) end) (map Fin [1; 2; 4]) (map Fin [10; 20; 30]) (map Fin [1; 1; 2]) = Ok out /\ nth 0 out NaN = NaN /\ nth 2 out NaN = Fin 15.
Proof.
  destruct (C65_bulk_value (fun x => match x with NaN => NaN | _ => Fin (1/2) end) (map Fin [1; 2; 4]) (map Fin [10; 20; 30]) (map Fin [1; 1; 2]) eq_refl eq_refl eq_refl) as (out & E & _ & H0 & H). exists out. split; [exact E|]. split; [exact H0|].
  rewrite (H 1%nat 2 4 2 30) by (try reflexivity; lra). cbn [nmul]. f_equal. field.
Qed.
Example C66_example : market [1; 2; 2; 3] [1; 2; 3; 4] /\ exists k a, kyle_lambda (map Fin [1; 2; 2; 3]) (map Fin [1; 2; 3; 4]) 1 = Ok k /\ nth 1 k NaN = Fin (1/2) /\ nth 2 k NaN = NaN
  /\ amihud_lambda (map Fin [1; 2; 2; 3]) (map Fin [1; 2; 3; 4]) 1 = Ok a /\ nth 2 a NaN = Fin 0.
Proof.
  assert (M : market [1; 2; 2; 3] [1; 2; 3; 4]) by (split; [reflexivity|intros [|[|[|[|j]]]] Hj; cbn [nth]; try lra; cbn in Hj; lia]). split; [exact M|].
  destruct (C66_kyle _ _ 1 1 M ltac:(lia) ltac:(cbn; lia)) as (k & E & _ & H1 & _). destruct (C66_kyle _ _ 1 2 M ltac:(lia) ltac:(cbn; lia)) as (k2 & E2 & _ & _ & H2). assert (k2 = k) by congruence. subst k2.
  destruct (C66_amihud _ _ 1 2 M ltac:(lia) ltac:(cbn; lia)) as (a & Ea & _ & Ha). exists k, a. split; [exact E|]. split; [|split; [|split; [exact Ea|]]].
  - destruct H1 as [-> _]; [lia|intros j Hj; assert (j = 1%nat) by lia; subst j; cbn [nth Nat.sub]; lra|]. unfold sumn. cbn [seq map rsum fold_right nth Nat.sub Nat.add INR]. replace (2 - 1) with 1 by ring. rewrite Rabs_R1. f_equal. field.
  - apply (H2 2%nat); [lia|lia|reflexivity].
  - destruct Ha as [-> _]; [lia|]. unfold sumn. cbn [seq map rsum fold_right nth Nat.sub Nat.add INR]. replace (2 / 2 - 1) with 0 by field. rewrite Rabs_R0. f_equal. field.
Qed.
Example C67_example : exists out, roll_measure (map Fin [exp 0; exp 1; exp 0; exp 1]) 2 = Ok out /\ nth 2 out NaN = NaN /\ nth 3 out NaN = Fin (2 * sqrt 2).
Proof.
  assert (P : forall j, (j < length [exp 0; exp 1; exp 0; exp 1])%nat -> 0 < nth j [exp 0; exp 1; exp 0; exp 1] 0) by (intros [|[|[|[|j]]]] Hj; cbn [nth]; try apply exp_pos; cbn in Hj; lia).
  destruct (C67_roll_measure _ 2 3 P ltac:(lia) ltac:(cbn; lia)) as (out & E & _ & H). destruct (C67_roll_measure _ 2 2 P ltac:(lia) ltac:(cbn; lia)) as (o2 & E2 & H2 & _). assert (o2 = out) by congruence. subst o2.
  exists out. split; [exact E|]. split; [apply H2; lia|]. rewrite H by lia. f_equal. f_equal. f_equal. unfold sample_cov, log_change, sumn. cbn [seq map rsum fold_right nth Nat.sub Nat.add INR]. rewrite !ln_exp.
  replace ((((0 - 1 - (0 - 1 + (1 - 0 + 0)) / (1 + 1)) * (1 - 0 - (1 - 0 + (0 - 1 + 0)) / (1 + 1)) + ((1 - 0 - (0 - 1 + (1 - 0 + 0)) / (1 + 1)) * (0 - 1 - (1 - 0 + (0 - 1 + 0)) / (1 + 1)) + 0)) / 1)) with (-2) by field.
  rewrite Rabs_left by lra. ring.
Qed.
Print Assumptions C64_sign. Print Assumptions C64_nonnegative. Print Assumptions C64_no_movement. Print Assumptions C65_bulk_volume. Print Assumptions C65_bulk_value. Print Assumptions C65_vpin.
Print Assumptions C66_kyle. Print Assumptions C66_hasbrouck. Print Assumptions C66_amihud. Print Assumptions C67_roll_measure. Print Assumptions C67_roll_impact.
