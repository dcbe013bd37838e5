(** C64 continued: the edge spread is the published estimator. *)
From Coq Require Import Reals Lra Psatz ZArith List Arith Bool Lia.
From Verif Require Import Base Num Sums Feat_Ops Feat_Spec Feat_Proofs Ewm_Proofs Feat_Model Feat_Causal_Props Feat_Avg_Props Feat_Band_Props Micro_Spec Micro_Props Micro_Spread_Props Micro_Edge_Spec.
Import ListNotations.
Open Scope R_scope.

Definition tab {A} (n : nat) (f : nat -> A) : list A := map f (seq 0 n).
Lemma tab_map : forall A B (g : A -> B) n f, map g (tab n f) = tab n (fun t => g (f t)). Proof. intros. unfold tab. apply map_map. Qed.
Lemma tab_tl : forall A n (f : nat -> A), tl (tab (S n) f) = tab n (fun t => f (S t)).
Proof. intros. unfold tab. cbn [seq map tl]. rewrite <- seq_shift, map_map. reflexivity. Qed.
Lemma tab_rl : forall A n (f : nat -> A), removelast (tab (S n) f) = tab n f.
Proof. intros. unfold tab. rewrite seq_S, map_app. cbn [map]. apply removelast_last. Qed.
Lemma tab_map2 : forall A B C (g : A -> B -> C) n f f', map2 g (tab n f) (tab n f') = tab n (fun t => g (f t) (f' t)).
Proof. intros. unfold map2, tab. generalize 0%nat. induction n as [|n IH]; intros s; [reflexivity|]. cbn [seq map combine fst snd]. rewrite IH. reflexivity. Qed.
Lemma tab_ext : forall A n (f g : nat -> A), (forall t, f t = g t) -> tab n f = tab n g. Proof. intros. apply map_ext. auto. Qed.
Lemma tab_mean : forall n f, (1 <= n)%nat -> nmean (tab n (fun t => Fin (f t))) = Fin (average n f).
Proof. intros n f H. unfold tab. rewrite <- (map_map f Fin). apply (mean_fun n f H). Qed.
Lemma tab_var : forall n f, (1 <= n)%nat -> nvar 0 (tab n (fun t => Fin (f t))) = Fin (pop_variance n f).
Proof.
  intros n f H. unfold tab. rewrite <- (map_map f Fin). rewrite nvar_fin by (rewrite map_length, seq_length; lia). f_equal. unfold rvar, pop_variance, average, rmean. rewrite map_map, map_length, seq_length.
  replace (n - 0)%nat with n by lia. reflexivity.
Qed.
Lemma nne_ln : forall x y, 0 < x -> 0 < y -> nne (Fin (ln x)) (Fin (ln y)) = differ x y.
Proof.
  intros x y Hx Hy. unfold nne, differ. cbn. unfold reqb. destruct (Req_EM_T x y) as [->|N]; [destruct (Req_EM_T (ln y) (ln y)); [reflexivity|congruence]|]. destruct (Req_EM_T (ln x) (ln y)) as [E|_]; [|reflexivity]. exfalso. apply N. apply ln_inv; auto.
Qed.
Lemma b2n_true : forall b, b2n b = Fin (is_true b). Proof. intros []; reflexivity. Qed.
Lemma tab_bmean : forall n p, (1 <= n)%nat -> bmean (tab n p) = Fin (freq n p).
Proof. intros n p H. unfold bmean. rewrite tab_map. rewrite (tab_ext _ n _ (fun t => Fin (is_true (p t)))) by (intros; apply b2n_true). apply tab_mean. auto. Qed.
Definition priced (b : bar) : Prop := 0 < b_o b /\ 0 < b_h b /\ 0 < b_l b /\ 0 < b_c b.
Lemma edge_s2_value : forall b n, (1 <= n)%nat -> (forall t, priced (b t)) ->
  edge_s2 (tab (S n) (fun t => Fin (b_o (b t)))) (tab (S n) (fun t => Fin (b_h (b t)))) (tab (S n) (fun t => Fin (b_l (b t)))) (tab (S n) (fun t => Fin (b_c (b t)))) =
  if neqb (Fin (p_moved b n)) (Fin 0) || neqb (Fin (p_open b n)) (Fin 0) || neqb (Fin (p_close b n)) (Fin 0) then None
  else Some (ndiv (Fin (pop_variance n (x2 b n) * average n (x1 b n) + pop_variance n (x1 b n) * average n (x2 b n))) (Fin (pop_variance n (x1 b n) + pop_variance n (x2 b n)))).
Proof.
  intros b n Hn P.
  assert (LG : forall g : bar -> R, (forall t, 0 < g (b t)) -> map nlog (tab (S n) (fun t => Fin (g (b t)))) = tab (S n) (fun t => Fin (ln (g (b t))))).
  { intros g Hg. rewrite tab_map. apply tab_ext. intros t. apply nlog_fin. auto. }
  assert (PO : forall t, 0 < b_o (b t)) by (intros; apply P). assert (PH : forall t, 0 < b_h (b t)) by (intros; apply P). assert (PL : forall t, 0 < b_l (b t)) by (intros; apply P). assert (PC : forall t, 0 < b_c (b t)) by (intros; apply P).
  unfold edge_s2. rewrite !LG by auto. cbv zeta. rewrite !(tab_map2 _ _ _ _ (S n)), !tab_tl, !tab_rl. rewrite !(tab_map2 _ _ _ nne). rewrite !(tab_map2 _ _ _ orb).
  assert (M : forall t, ndiv (nadd (Fin (ln (b_h (b t)))) (Fin (ln (b_l (b t))))) (Fin 2) = Fin (mid b t)) by (intros t; cbn [nadd]; rewrite ndiv_fin by lra; reflexivity).
  assert (TAU : tab n (fun t => nne (Fin (ln (b_h (b (S t))))) (Fin (ln (b_l (b (S t))))) || nne (Fin (ln (b_l (b (S t))))) (Fin (ln (b_c (b t))))) = tab n (moved b)) by (apply tab_ext; intros t; rewrite !nne_ln by auto; reflexivity).
  rewrite !TAU. rewrite !(tab_map2 _ _ _ andb). rewrite !(tab_map2 _ _ _ nsub).
  rewrite (tab_ext _ n (fun t => nsub (ndiv (nadd (Fin (ln (b_h (b (S t))))) (Fin (ln (b_l (b (S t)))))) (Fin 2)) (Fin (ln (b_o (b (S t)))))) (fun t => Fin (r1 b t))) by (intros t; rewrite M; reflexivity).
  rewrite (tab_ext _ n (fun t => nsub (Fin (ln (b_o (b (S t))))) (ndiv (nadd (Fin (ln (b_h (b t)))) (Fin (ln (b_l (b t))))) (Fin 2))) (fun t => Fin (r2 b t))) by (intros t; rewrite M; reflexivity).
  rewrite (tab_ext _ n (fun t => nsub (ndiv (nadd (Fin (ln (b_h (b (S t))))) (Fin (ln (b_l (b (S t)))))) (Fin 2)) (Fin (ln (b_c (b t))))) (fun t => Fin (r3 b t))) by (intros t; rewrite M; reflexivity).
  rewrite (tab_ext _ n (fun t => nsub (Fin (ln (b_c (b t)))) (ndiv (nadd (Fin (ln (b_h (b t)))) (Fin (ln (b_l (b t))))) (Fin 2))) (fun t => Fin (r4 b t))) by (intros t; rewrite M; reflexivity).
  change (tab n (fun t => nsub (Fin (ln (b_o (b (S t))))) (Fin (ln (b_c (b t)))))) with (tab n (fun t => Fin (r5 b t))).
  rewrite (tab_ext _ n (fun t => nne (Fin (ln (b_o (b (S t))))) (Fin (ln (b_h (b (S t))))) && moved b t) (fun t => differ (b_o (b (S t))) (b_h (b (S t))) && moved b t)) by (intros t; rewrite nne_ln by auto; reflexivity).
  rewrite (tab_ext _ n (fun t => nne (Fin (ln (b_o (b (S t))))) (Fin (ln (b_l (b (S t))))) && moved b t) (fun t => differ (b_o (b (S t))) (b_l (b (S t))) && moved b t)) by (intros t; rewrite nne_ln by auto; reflexivity).
  rewrite (tab_ext _ n (fun t => nne (Fin (ln (b_c (b t)))) (Fin (ln (b_h (b t)))) && moved b t) (fun t => differ (b_c (b t)) (b_h (b t)) && moved b t)) by (intros t; rewrite nne_ln by auto; reflexivity).
  rewrite (tab_ext _ n (fun t => nne (Fin (ln (b_c (b t)))) (Fin (ln (b_l (b t)))) && moved b t) (fun t => differ (b_c (b t)) (b_l (b t)) && moved b t)) by (intros t; rewrite nne_ln by auto; reflexivity).
  rewrite !tab_bmean by auto. cbn [nadd]. fold (p_moved b n). fold (p_open b n). fold (p_close b n).
  destruct (neqb (Fin (p_moved b n)) (Fin 0)) eqn:B1; [reflexivity|]. destruct (neqb (Fin (p_open b n)) (Fin 0)) eqn:B2; [reflexivity|]. destruct (neqb (Fin (p_close b n)) (Fin 0)) eqn:B3; [reflexivity|]. cbn [orb].
  assert (N1 : p_moved b n <> 0) by (intros X; apply neqb_fin in X; congruence). assert (N2 : p_open b n <> 0) by (intros X; apply neqb_fin in X; congruence). assert (N3 : p_close b n <> 0) by (intros X; apply neqb_fin in X; congruence).
  rewrite !tab_mean by auto. rewrite !tab_map2. rewrite !ndiv_fin by auto.
  assert (CEN : forall r t, nsub (Fin (r t)) (ndiv (nmul (b2n (moved b t)) (Fin (average n r))) (Fin (p_moved b n))) = Fin (centred b n r t)) by (intros r t; rewrite b2n_true; cbn [nmul]; rewrite ndiv_fin by auto; reflexivity).
  rewrite (tab_ext _ n _ (fun t => Fin (x1 b n t)) (fun t => f_equal2 (fun u v => nsub (nmul (nmul (Fin (-4 / p_open b n)) u) (Fin (r2 b t))) (nmul (nmul (Fin (4 / p_close b n)) v) (Fin (r4 b t)))) (CEN (r1 b) t) (CEN (r3 b) t))).
  rewrite (tab_ext _ n _ (fun t => Fin (x2 b n t)) (fun t => f_equal2 (fun u v => nsub (nmul (nmul (Fin (-4 / p_open b n)) u) (Fin (r5 b t))) (nmul (nmul (Fin (4 / p_close b n)) v) (Fin (r4 b t)))) (CEN (r1 b) t) (CEN (r5 b) t))).
  rewrite !tab_mean, !tab_var by auto. reflexivity.
Qed.
(** For positive prices the estimate at row i is the published estimator on the w bars that end there; it is NaN for incomplete windows, a window of one bar, and where a frequency or
    both variances vanish. *)
Theorem C64_value : forall (bars : list bar) (w i : nat) (sign : bool), (forall x, In x bars -> priced x) -> (1 <= w)%nat -> (i < length bars)%nat ->
  exists out, edge_spread (map (fun x => Fin (b_h x)) bars) (map (fun x => Fin (b_l x)) bars) (map (fun x => Fin (b_o x)) bars) (map (fun x => Fin (b_c x)) bars) (Z.of_nat w) sign = Ok out
  /\ length out = length bars
  /\ ((S i < w)%nat -> nth i out NaN = NaN)
  /\ ((w <= S i)%nat -> let b t := nth (S i - w + t) bars (mkbar 1 1 1 1) in let n := (w - 1)%nat in
       let undefined := n = 0%nat \/ p_moved b n = 0 \/ p_open b n = 0 \/ p_close b n = 0 \/ pop_variance n (x1 b n) + pop_variance n (x2 b n) = 0 in
       (undefined -> nth i out NaN = NaN)
       /\ (~ undefined -> (0 <= squared_spread b n -> nth i out NaN = Fin (sqrt (squared_spread b n)))
                        /\ (squared_spread b n < 0 -> nth i out NaN = Fin (if sign then - sqrt (- squared_spread b n) else sqrt (- squared_spread b n))))).
Proof.
  intros bars w i sign P Hw Hi. set (H := map (fun x => Fin (b_h x)) bars). set (L := map (fun x => Fin (b_l x)) bars). set (O := map (fun x => Fin (b_o x)) bars). set (C := map (fun x => Fin (b_c x)) bars).
  assert (LH : length H = length bars) by apply map_length. assert (LL : length L = length bars) by apply map_length. assert (LO : length O = length bars) by apply map_length. assert (LC : length C = length bars) by apply map_length.
  assert (E : exists out, edge_spread H L O C (Z.of_nat w) sign = Ok out /\ nth i out NaN = (if Nat.ltb (S i) w then NaN else
     let W x := tab w (fun j => nth (S i - w + j) x NaN) in edge_window (W O) (W H) (W L) (W C) sign)).
  { unfold edge_spread. rewrite (proj2 (Z.ltb_ge _ _)) by lia. eexists. split; [reflexivity|]. rewrite Nat2Z.id. set (n := Nat.max (Nat.max (length O) (length H)) (Nat.max (length L) (length C))). assert (EN : n = length bars) by lia.
    rewrite nth_seq_map' by lia. destruct (Nat.ltb_spec (S i) w); [reflexivity|].
    assert (G : forall x, skipn (S i - w) (firstn (S i) (map (fun i => nth i x NaN) (seq 0 n))) = tab w (fun j => nth (S i - w + j) x NaN)).
    { intros x. unfold tab. destruct (window_list (map (fun i => nth i x NaN) (seq 0 n)) w i) as [L1 N]; [lia|rewrite map_length, seq_length; lia|].
      apply list_ext; [rewrite L1, map_length, seq_length; auto|]. rewrite L1. intros j Hj. rewrite N by auto. rewrite !nth_seq_map' by lia. reflexivity. }
    cbv zeta. rewrite <- (G O), <- (G H), <- (G L), <- (G C). reflexivity. }
  destruct E as (out & E & V). exists out. split; [exact E|]. split; [destruct (firstn_edge _ _ _ _ _ _ 0 _ E) as [LE _]; rewrite LE, LH, LL, LO, LC; lia|]. rewrite V.
  split; [intros X; rewrite (proj2 (Nat.ltb_lt _ _)) by auto; reflexivity|]. intros X. rewrite (proj2 (Nat.ltb_ge _ _)) by auto. cbv zeta.
  set (b := fun t => nth (S i - w + t) bars (mkbar 1 1 1 1)).
  assert (PB : forall t, priced (b t)). { intros t. unfold b. destruct (Nat.lt_ge_cases (S i - w + t) (length bars)) as [I|I]; [apply P, nth_In; auto|]. rewrite nth_overflow by auto. unfold priced. cbn. lra. }
  assert (WB : forall g : bar -> R, tab w (fun j => nth (S i - w + j) (map (fun x => Fin (g x)) bars) NaN) = tab w (fun t => Fin (g (b t)))).
  { intros g. unfold tab. apply map_ext_in. intros j Hj. apply in_seq in Hj. rewrite (nth_indep _ NaN (Fin (g (mkbar 1 1 1 1)))) by (rewrite map_length; lia). exact (map_nth (fun x => Fin (g x)) bars (mkbar 1 1 1 1) (S i - w + j)). }
  unfold H, L, O, C. rewrite !WB. clear V E. unfold edge_window.
  destruct w as [|n]; [lia|]. replace (S n - 1)%nat with n by lia. destruct (Nat.eq_dec n 0) as [Z|NZ].
  - split; [intros _|intros N; exfalso; apply N; auto]. subst n. unfold edge_s2, tab, bmean, map2. cbn [seq map combine removelast tl fst snd nadd]. rewrite !nmean_nil. cbn [neqb orb]. rewrite !nmul_nan_r. cbn [nadd]. rewrite ndiv_nan_l. destruct sign; reflexivity.
  - rewrite edge_s2_value by (auto; lia).
    destruct (neqb (Fin (p_moved b n)) (Fin 0)) eqn:B1; [apply neqb_fin in B1; split; [reflexivity|intros N; exfalso; apply N; auto]|].
    destruct (neqb (Fin (p_open b n)) (Fin 0)) eqn:B2; [apply neqb_fin in B2; split; [reflexivity|intros N; exfalso; apply N; auto]|].
    destruct (neqb (Fin (p_close b n)) (Fin 0)) eqn:B3; [apply neqb_fin in B3; split; [reflexivity|intros N; exfalso; apply N; auto]|]. cbn [orb].
    assert (N1 : p_moved b n <> 0) by (intros Y; apply neqb_fin in Y; congruence). assert (N2 : p_open b n <> 0) by (intros Y; apply neqb_fin in Y; congruence). assert (N3 : p_close b n <> 0) by (intros Y; apply neqb_fin in Y; congruence).
    assert (VP : forall f, 0 <= pop_variance n f).
    { intros f. unfold pop_variance, average at 1. apply sumn_nonneg_div; [lia|]. intros j _. apply Rle_0_sqr. }
    pose proof (VP (x1 b n)) as V1. pose proof (VP (x2 b n)) as V2.
    destruct (Req_dec (pop_variance n (x1 b n) + pop_variance n (x2 b n)) 0) as [VZ|VN].
    + split; [intros _|intros N; exfalso; apply N; auto]. assert (Z1 : pop_variance n (x1 b n) = 0) by lra. assert (Z2 : pop_variance n (x2 b n) = 0) by lra. rewrite Z1, Z2.
      replace (0 * average n (x1 b n) + 0 * average n (x2 b n)) with 0 by ring. replace (0 + 0) with 0 by ring. rewrite zero_div_zero. destruct sign; reflexivity.
    + split; [intros [|[|[|[|]]]]; contradiction|]. intros _. rewrite ndiv_fin by auto. fold (squared_spread b n). cbn [nabs nltb]. rewrite nsqrt_fin by apply Rabs_pos. unfold rltb.
      split; intros S0; destruct (Rlt_dec (squared_spread b n) 0); try lra.
      * rewrite Rabs_pos_eq by auto. rewrite andb_false_r. reflexivity.
      * rewrite Rabs_left by auto. destruct sign; reflexivity.
Qed.
Lemma differ_exp : forall a b, a <> b -> differ (exp a) (exp b) = true.
Proof. intros a b H. unfold differ. destruct (Req_EM_T (exp a) (exp b)) as [E|]; [|reflexivity]. exfalso. apply H. apply exp_inv. auto. Qed.
Lemma differ_same : forall a, differ a a = false. Proof. intros a. unfold differ. destruct (Req_EM_T a a); congruence. Qed.
Example C64_example : let bars := [mkbar (exp 0) (exp 2) (exp 0) (exp 1); mkbar (exp 1) (exp 3) (exp 1) (exp 2); mkbar (exp 0) (exp 4) (exp 0) (exp 0)] in
  exists out, edge_spread (map (fun x => Fin (b_h x)) bars) (map (fun x => Fin (b_l x)) bars) (map (fun x => Fin (b_o x)) bars) (map (fun x => Fin (b_c x)) bars) 3 false = Ok out /\ nth 1 out NaN = NaN /\ nth 2 out NaN = Fin (sqrt 2).
Proof.
  intros bars. assert (P : forall x, In x bars -> priced x) by (intros x [<-|[<-|[<-|[]]]]; unfold priced; cbn; repeat split; apply exp_pos).
  destruct (C64_value bars 3 1 false P ltac:(lia) ltac:(cbn; lia)) as (out & E & _ & H1 & _). destruct (C64_value bars 3 2 false P ltac:(lia) ltac:(cbn; lia)) as (o2 & E2 & _ & _ & H). assert (o2 = out) by congruence. subst o2.
  exists out. split; [exact E|]. split; [apply H1; lia|]. specialize (H ltac:(lia)). cbv zeta in H. change (3 - 1)%nat with 2%nat in H. set (b := fun t => nth (3 - 3 + t) bars (mkbar 1 1 1 1)) in H.
  assert (M0 : moved b 0 = true) by (unfold moved, b; cbn; rewrite differ_exp by lra; reflexivity). assert (M1 : moved b 1 = true) by (unfold moved, b; cbn; rewrite differ_exp by lra; reflexivity).
  assert (PM : p_moved b 2 = 1) by (unfold p_moved, freq, average, sumn; cbn [seq map rsum fold_right INR]; rewrite M0, M1; unfold is_true; field).
  assert (PO : p_open b 2 = 1).
  { unfold p_open, freq, average, sumn. cbn [seq map rsum fold_right INR]. rewrite M0, M1. unfold b. cbn [nth bars Nat.sub Nat.add b_o b_h b_l b_c]. rewrite !differ_same, !differ_exp by lra. cbn [andb is_true]. field. }
  assert (PC : p_close b 2 = 2).
  { unfold p_close, freq, average, sumn. cbn [seq map rsum fold_right INR]. rewrite M0, M1. unfold b. cbn [nth bars Nat.sub Nat.add b_o b_h b_l b_c]. rewrite !differ_exp by lra. cbn [andb is_true]. field. }
  assert (RR : (r1 b 0 = 1 /\ r1 b 1 = 2) /\ (r2 b 0 = 0 /\ r2 b 1 = -2) /\ (r3 b 0 = 1 /\ r3 b 1 = 0) /\ (r4 b 0 = 0 /\ r4 b 1 = 0) /\ (r5 b 0 = 0 /\ r5 b 1 = -2)).
  { unfold r1, r2, r3, r4, r5, mid, b. cbn [nth bars Nat.sub Nat.add b_o b_h b_l b_c]. rewrite !ln_exp. repeat split; field. }
  destruct RR as ((A1 & A2) & (B1 & B2) & (C1 & C2) & (D1 & D2) & (F1 & F2)).
  assert (X : x1 b 2 0 = 0 /\ x1 b 2 1 = 4 /\ x2 b 2 0 = 0 /\ x2 b 2 1 = 4).
  { unfold x1, x2, centred, average, sumn. cbn [seq map rsum fold_right INR]. rewrite M0, M1, PM, PO, PC, A1, A2, B1, B2, C1, C2, D1, D2, F1, F2. unfold is_true. repeat split; field. }
  destruct X as (X1 & X2 & X3 & X4).
  assert (V1 : pop_variance 2 (x1 b 2) = 4 /\ pop_variance 2 (x2 b 2) = 4) by (unfold pop_variance, average, sumn; cbn [seq map rsum fold_right INR]; rewrite X1, X2, X3, X4; split; field). destruct V1 as [V1 V2].
  assert (Q : squared_spread b 2 = 2) by (unfold squared_spread; rewrite V1, V2; unfold average, sumn; cbn [seq map rsum fold_right INR]; rewrite X1, X2, X3, X4; field).
  destruct H as [_ H]. destruct H as [H _]; [rewrite PM, PO, PC, V1, V2; intros [K|[K|[K|[K|K]]]]; try lra; discriminate K|]. rewrite Q in H. apply H. lra.
Qed.
Print Assumptions C64_value.
