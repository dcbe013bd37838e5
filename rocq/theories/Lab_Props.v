(** C99: features of Series whose dates differ.  pandas pairs values by date; these theorems say what that means for each function that takes
    several Series. *)
From Coq Require Import Reals Lra ZArith List Arith Bool Lia Sorted.
From Verif Require Import Base Num Sums Feat_Ops Feat_Spec Feat_Proofs Feat_Model Feat_Causal_Props Lab_Model Lab_Spec Lab_Proofs.
Import ListNotations.
Open Scope R_scope.

Ltac ln := autorewrite with lens; rewrite ?seq_length; autorewrite with lens; lia.
Ltac ser := repeat first
  [ rewrite on_series by ln | rewrite align_series by ln | rewrite update_series by ln | rewrite row3_series by ln | rewrite on_res_series by ln ].
Definition view_pairs : list ((lbands -> ser) * (bands -> list num)) :=
  [(l_upper, upper); (l_lower, lower); (l_middle, middle); (l_bandwidth, bandwidth); (l_percent_b, percent_b)].

(** C99, one index: if all inputs have the same dates, the dates do not matter: the result has those dates and the values of the function of
    the values alone *)
Theorem C99_same_dates : forall (ix : list Z) (a b c d : list num) (w : Z) (span : R) (mult : num) (sign : bool) (cdf : num -> num),
  length a = length ix -> length b = length ix -> length c = length ix -> length d = length ix ->
  let A := series ix a in let B := series ix b in let C := series ix c in let D := series ix d in
  l_average_true_range A B C w = with_dates ix (average_true_range a b c w)
  /\ (forall lview view, In (lview, view) view_pairs ->
       (k <- l_keltner A B C w span mult ;; Ok (lview k)) = with_dates ix (k <- KeltnerBands a b c w span mult ;; Ok (view k)))
  /\ l_high_low_volatility A B w = with_dates ix (high_low_volatility a b w)
  /\ l_garman_klass_volatility A B C D w = with_dates ix (garman_klass_volatility a b c d w)
  /\ l_rogers_satchell_volatility A B C D w = with_dates ix (rogers_satchell_volatility a b c d w)
  /\ l_yang_zhang_volatility A B C D w = with_dates ix (yang_zhang_volatility a b c d w)
  /\ l_becker_parkinson_volatility A B w = with_dates ix (becker_parkinson_volatility a b w)
  /\ l_corwin_schultz_spread A B w = with_dates ix (corwin_schultz_spread a b w)
  /\ l_roll_impact A B w = with_dates ix (roll_impact a b w)
  /\ l_edge_spread A B C D w sign = with_dates ix (edge_spread a b c d w sign)
  /\ l_vpin A B w = with_dates ix (vpin a b w)
  /\ l_estimate_buy_volume cdf A B C = with_dates ix (estimate_buy_volume cdf a b c)
  /\ l_kyle_lambda A B w = with_dates ix (kyle_lambda a b w)
  /\ l_amihud_lambda A B w = with_dates ix (amihud_lambda a b w)
  /\ l_hasbrouck_lambda A B w = with_dates ix (hasbrouck_lambda a b w).
Proof.
  intros ix a b c d w span mult sign cdf Ha Hb Hc Hd A B C D. subst A B C D.
  assert (LP : forall l, length (pct_change l) = length l) by (intros; unfold pct_change; cbv zeta; autorewrite with lens; lia).
  assert (ATR : l_average_true_range (series ix a) (series ix b) (series ix c) w = with_dates ix (average_true_range a b c w)).
  { unfold l_average_true_range, average_true_range. destruct (w =? 0)%Z; [reflexivity|]. rewrite tr_row3. ser. reflexivity. }
  repeat match goal with |- _ /\ _ => split end.
  - exact ATR.
  - intros lview view Hv. unfold l_keltner, KeltnerBands, ewm_mean, ewm_span. rewrite on_res_series by ln. destruct (rltb span 1); [reflexivity|]. cbn [with_dates bind].
    rewrite ATR. unfold average_true_range, ewm_alpha. destruct (w =? 0)%Z; [reflexivity|]. destruct (_ && _); [|reflexivity]. cbn [with_dates bind].
    cbn [In view_pairs] in Hv. repeat destruct Hv as [E|Hv]; try injection E as <- <-; [..|destruct Hv];
      unfold l_percent_b, l_bandwidth, l_width, l_lower, l_upper, l_middle, percent_b, bandwidth, lower, upper, middle; cbn [lb_ts lb_mean lb_std lb_mult b_ts b_mean b_std b_mult]; ser; reflexivity.
  - unfold l_high_low_volatility, high_low_volatility, rolling. ser. destruct (w <? 0)%Z; [reflexivity|]. cbn [with_dates bind]. ser. reflexivity.
  - unfold l_garman_klass_volatility, garman_klass_volatility, rolling. cbv zeta. ser. destruct (w <? 0)%Z; [reflexivity|]. cbn [with_dates bind]. ser. reflexivity.
  - unfold l_rogers_satchell_volatility, rogers_satchell_volatility, l_rs_terms, rs_terms. ser. reflexivity.
  - unfold l_yang_zhang_volatility, yang_zhang_volatility, l_rogers_satchell_volatility, rogers_satchell_volatility, l_rs_terms, rs_terms, rolling. cbv zeta.
    destruct (w =? 1)%Z; [reflexivity|]. ser. destruct (w <? 0)%Z; [reflexivity|]. cbn [with_dates bind]. ser. reflexivity.
  - unfold l_becker_parkinson_volatility, becker_parkinson_volatility, l_beta, get_beta, rolling. ser. destruct (w <? 0)%Z; [reflexivity|]. cbn [with_dates bind].
    unfold l_sigma, get_sigma, l_gamma, get_gamma. cbv zeta. ser. reflexivity.
  - unfold l_corwin_schultz_spread, corwin_schultz_spread, l_beta, get_beta, rolling. ser. destruct (w <? 0)%Z; [reflexivity|]. cbn [with_dates bind].
    unfold l_alpha, get_alpha, l_gamma, get_gamma. ser. reflexivity.
  - unfold l_roll_impact, roll_impact. rewrite on_res_series by ln. destruct (roll_measure a w) as [v|e] eqn:E; [|reflexivity]. cbn [with_dates bind].
    pose proof (C53_micro w sign cdf) as H. repeat match type of H with _ /\ _ => let H1 := fresh in destruct H as [H1 H]; try (specialize (H1 _ _ E); destruct H1 as [H1 _]; ser; reflexivity) end.
  - unfold l_edge_spread, frame. cbn [forallb]. rewrite !series_labels, same_labels_refl by assumption. cbn [andb map nth]. rewrite !series_values by assumption.
    destruct (edge_spread a b c d w sign); reflexivity.
  - unfold l_vpin, vpin. cbv zeta. ser. reflexivity.
  - unfold l_estimate_buy_volume, estimate_buy_volume. cbv zeta. ser. rewrite series_labels, !series_values by ln.
    replace (length (series ix (lift2 ndiv (diff 1 a) c))) with (length (lift2 ndiv (diff 1 a) c)) by (unfold series; rewrite combine_length; autorewrite with lens; lia).
    replace (length (series ix b)) with (length b) by (unfold series; rewrite combine_length; lia).
    destruct (Nat.eqb _ (length b)); [reflexivity|]. destruct (Nat.eqb _ 1); [|reflexivity]. reflexivity.
  - unfold l_kyle_lambda, kyle_lambda. cbv zeta. ser. reflexivity.
  - unfold l_amihud_lambda, amihud_lambda. ser. rewrite align_series, on_res_series by (autorewrite with lens; rewrite ?LP; lia). reflexivity.
  - unfold l_hasbrouck_lambda, hasbrouck_lambda. cbv zeta. ser. reflexivity.
Qed.
Print Assumptions C99_same_dates.
Example C99_same_dates_case : l_vpin (series [10; 20]%Z [Fin 4; Fin 2]) (series [10; 20]%Z [Fin 3; Fin 1]) 1 = Ok (series [10; 20]%Z [Fin (1 / 2); Fin 0]).
Proof.
  destruct (C99_same_dates [10; 20]%Z [Fin 4; Fin 2] [Fin 3; Fin 1] [NaN; NaN] [NaN; NaN] 1 1 NaN true (fun x => x) eq_refl eq_refl eq_refl eq_refl)
    as (_ & _ & _ & _ & _ & _ & _ & _ & _ & _ & H & _). rewrite H. unfold vpin, rolling, roll, roll_at, lift2, agg_mean, nmean. cbn.
  unfold reqb. repeat (destruct Req_EM_T; try lra). cbn.
  change (Pos.to_nat 1) with 1%nat. cbn. unfold reqb. repeat (destruct Req_EM_T; try lra). unfold series. cbn [combine].
  do 2 f_equal; [|f_equal]; f_equal; f_equal; unfold Rabs; destruct Rcase_abs; lra.
Qed.
Ltac roll_cases w := destruct (prefr_rolling w agg_mean) as [[e E]|(f & Hf & E)];
  [ rewrite ?(on_res_raise _ _ _ E); cbn [bind known]; try reflexivity | rewrite ?(fun s => on_res_pure _ _ s E); cbn [bind known]; try (f_equal; push_upto; reflexivity) ].
Lemma measure_cases : forall w, (exists e, forall s, on_res (fun l => roll_measure l w) s = Raise e) \/ exists f, pref1 f /\ forall s, on_res (fun l => roll_measure l w) s = Ok (on f s).
Proof. intros w. destruct (prefr_measure w) as [[e E]|(f & Hf & E)]; [left; exists e; intros; apply on_res_raise; exact E|right; exists f; split; [exact Hf|intros; apply on_res_pure; exact E]]. Qed.
Lemma ewm_cases : forall w, (exists e, forall s, on_res (fun l => ewm_mean l w) s = Raise e) \/ exists f, pref1 f /\ forall s, on_res (fun l => ewm_mean l w) s = Ok (on f s).
Proof. intros w. destruct (prefr_ewm w) as [[e E]|(f & Hf & E)]; [left; exists e; intros; apply on_res_raise; exact E|right; exists f; split; [exact Hf|intros; apply on_res_pure; exact E]]. Qed.
Lemma alpha_cases : forall w, (exists e, forall s, on_res (ewm_alpha w 0) s = Raise e) \/ exists f, pref1 f /\ forall s, on_res (ewm_alpha w 0) s = Ok (on f s).
Proof. intros w. destruct (prefr_alpha w) as [[e E]|(f & Hf & E)]; [left; exists e; intros; apply on_res_raise; exact E|right; exists f; split; [exact Hf|intros; apply on_res_pure; exact E]]. Qed.
Lemma roll_on_cases : forall w, (exists e, forall s, on_res (rolling w agg_mean) s = Raise e) \/ exists f, pref1 f /\ forall s, on_res (rolling w agg_mean) s = Ok (on f s).
Proof. intros w. destruct (prefr_rolling w agg_mean) as [[e E]|(f & Hf & E)]; [left; exists e; intros; apply on_res_raise; exact E|right; exists f; split; [exact Hf|intros; apply on_res_pure; exact E]]. Qed.

Lemma labels_beta_gamma : forall f h l, pref1 f -> dated h -> dated l ->
  labels (on f (on (roll 2 agg_sum) (on (map nsqr) (align logratio h l)))) = U2 h l /\ labels (l_gamma h l) = U2 h l.
Proof.
  intros f h l Hf Hh Hl. unfold l_gamma. split; rewrite !labels_on by dkeep; rewrite labels_align by dat; [reflexivity|].
  unfold U2. rewrite !labels_on by dkeep. reflexivity.
Qed.

(** C99, no look-ahead by date: whatever the dates of the inputs (each strictly increasing), cutting every input at time t gives exactly the
    result up to time t *)
Theorem C99_no_look_ahead : forall (w : Z) (span : R) (mult : num) (sign : bool),
  no_look_ahead3 (fun h l c => l_average_true_range h l c w)
  /\ (forall view, In view [l_upper; l_lower; l_middle; l_bandwidth; l_percent_b] -> no_look_ahead3 (fun h l c => b <- l_keltner h l c w span mult ;; Ok (view b)))
  /\ no_look_ahead2 (fun h l => l_high_low_volatility h l w)
  /\ no_look_ahead4 (fun h l o c => l_garman_klass_volatility h l o c w)
  /\ no_look_ahead4 (fun h l o c => l_rogers_satchell_volatility h l o c w)
  /\ no_look_ahead4 (fun h l o c => l_yang_zhang_volatility h l o c w)
  /\ no_look_ahead2 (fun h l => l_becker_parkinson_volatility h l w)
  /\ no_look_ahead2 (fun h l => l_corwin_schultz_spread h l w)
  /\ no_look_ahead2 (fun c v => l_roll_impact c v w)
  /\ no_look_ahead4 (fun h l o c => l_edge_spread h l o c w sign)
  /\ no_look_ahead2 (fun v b => l_vpin v b w)
  /\ no_look_ahead2 (fun c v => l_kyle_lambda c v w)
  /\ no_look_ahead2 (fun c v => l_amihud_lambda c v w)
  /\ no_look_ahead2 (fun c v => l_hasbrouck_lambda c v w).
Proof.
  intros w span mult sign.
  repeat match goal with |- _ /\ _ => split end.
  - intros h l c t Hh Hl Hc. unfold l_average_true_range. destruct (w =? 0)%Z; [reflexivity|]. rewrite !tr_row3.
    destruct (alpha_cases (1 / IZR w)) as [[e E]|(f & Hf & E)]; rewrite !E; [reflexivity|]. cbn [known]. f_equal. push_upto. reflexivity.
  - intros view Hv h l c t Hh Hl Hc. unfold l_keltner, l_average_true_range. rewrite !tr_row3.
    destruct (ewm_cases span) as [[e E]|(f & Hf & E)]; rewrite !E; [reflexivity|]. cbn [bind]. destruct (w =? 0)%Z; [reflexivity|].
    destruct (alpha_cases (1 / IZR w)) as [[e' E']|(g & Hg & E')]; rewrite !E'; [reflexivity|]. cbn [bind known]. f_equal.
    cbn [In] in Hv. destruct Hv as [<-|[<-|[<-|[<-|[<-|[]]]]]];
      unfold l_percent_b, l_bandwidth, l_width, l_lower, l_upper, l_middle; cbn [lb_ts lb_mean lb_std lb_mult]; push_upto; reflexivity.
  - intros h l t Hh Hl. unfold l_high_low_volatility. destruct (roll_on_cases w) as [[e E]|(f & Hf & E)]; rewrite !E; [reflexivity|]. cbn [bind known]. f_equal. push_upto. reflexivity.
  - intros h l o c t Hh Hl Ho Hc. unfold l_garman_klass_volatility. cbv zeta. destruct (roll_on_cases w) as [[e E]|(f & Hf & E)]; rewrite !E; [reflexivity|]. cbn [bind known]. f_equal. push_upto. reflexivity.
  - intros h l o c t Hh Hl Ho Hc. unfold l_rogers_satchell_volatility, l_rs_terms. destruct (roll_on_cases w) as [[e E]|(f & Hf & E)]; rewrite !E; [reflexivity|]. cbn [bind known]. f_equal. push_upto. reflexivity.
  - intros h l o c t Hh Hl Ho Hc. unfold l_yang_zhang_volatility, l_rogers_satchell_volatility, l_rs_terms. cbv zeta. destruct (w =? 1)%Z; [reflexivity|].
    destruct (roll_on_cases w) as [[e E]|(f & Hf & E)]; rewrite !E; [reflexivity|]. cbn [bind known]. f_equal. push_upto. reflexivity.
  - intros h l t Hh Hl. unfold l_becker_parkinson_volatility, l_beta. destruct (roll_on_cases w) as [[e E]|(f & Hf & E)]; rewrite !E; [reflexivity|]. cbn [bind known]. f_equal.
    unfold l_sigma. cbv zeta.
    pose proof (labels_beta_gamma f h l Hf Hh Hl) as [B1 G1]. pose proof (labels_beta_gamma f (upto t h) (upto t l) Hf ltac:(dat) ltac:(dat)) as [B2 G2].
    rewrite !update_align; [unfold l_gamma; push_upto; reflexivity|..]; try (unfold l_gamma; dat); rewrite !(labels_on (map _)) by dkeep; congruence.
  - intros h l t Hh Hl. unfold l_corwin_schultz_spread, l_beta. destruct (roll_on_cases w) as [[e E]|(f & Hf & E)]; rewrite !E; [reflexivity|]. cbn [bind known]. f_equal.
    unfold l_alpha.
    pose proof (labels_beta_gamma f h l Hf Hh Hl) as [B1 G1]. pose proof (labels_beta_gamma f (upto t h) (upto t l) Hf ltac:(dat) ltac:(dat)) as [B2 G2].
    rewrite !update_align; [unfold l_gamma; push_upto; reflexivity|..]; try (unfold l_gamma; dat); rewrite !(labels_on (map _)) by dkeep; congruence.
  - intros c v t Hc Hv. unfold l_roll_impact. destruct (measure_cases w) as [[e E]|(f & Hf & E)]; rewrite !E; [reflexivity|]. cbn [bind known]. f_equal. push_upto. reflexivity.
  - intros h l o c t Hh Hl Ho Hc. unfold l_edge_spread. rewrite !frame_dated by (try discriminate; repeat constructor; dat). cbn [map nth].
    rewrite !labels_upto. change [before t (labels o); before t (labels h); before t (labels l); before t (labels c)] with (map (before t) [labels o; labels h; labels l; labels c]).
    rewrite union_before by (repeat constructor; assumption). set (U := union [labels o; labels h; labels l; labels c]).
    assert (HU : zsorted U) by apply sorted_union.
    assert (P : forall s, map (at_label (upto t s)) (before t U) = firstn (length (before t U)) (map (at_label s) U)).
    { intros s. rewrite firstn_map, <- before_firstn by exact HU. apply map_ext_in. intros k Hk. apply filter_In in Hk as [_ Hk]. apply at_label_upto. lia. }
    rewrite !P. destruct (edge_spread (map (at_label h) U) (map (at_label l) U) (map (at_label o) U) (map (at_label c) U) w sign) as [v|e] eqn:E.
    + destruct (firstn_edge _ _ _ _ _ _ (length (before t U)) _ E) as [L E2]. rewrite E2. cbn [bind known]. f_equal.
      rewrite !map_length in L. rewrite upto_firstn by (unfold dated; change (map fst (combine U v)) with (labels (combine U v)); rewrite labels_combine by lia; exact HU).
      rewrite labels_combine by lia. rewrite combine_firstn'. f_equal. apply before_firstn. exact HU.
    + unfold edge_spread in *. destruct (w <? 1)%Z; [|discriminate]. injection E as <-. reflexivity.
  - intros v b t Hv Hb. unfold l_vpin. cbv zeta. destruct (roll_on_cases w) as [[e E]|(f & Hf & E)]; rewrite !E; [reflexivity|]. cbn [bind known]. f_equal. push_upto. reflexivity.
  - intros c v t Hc Hv. unfold l_kyle_lambda. cbv zeta. destruct (roll_on_cases w) as [[e E]|(f & Hf & E)]; rewrite !E; [reflexivity|]. cbn [bind known]. f_equal. push_upto. reflexivity.
  - intros c v t Hc Hv. unfold l_amihud_lambda. destruct (roll_on_cases w) as [[e E]|(f & Hf & E)]; rewrite !E; [reflexivity|]. cbn [bind known]. f_equal. push_upto. reflexivity.
  - intros c v t Hc Hv. unfold l_hasbrouck_lambda. cbv zeta. destruct (roll_on_cases w) as [[e E]|(f & Hf & E)]; rewrite !E; [reflexivity|]. cbn [bind known]. f_equal. push_upto. reflexivity.
Qed.
Print Assumptions C99_no_look_ahead.

Ltac dts := repeat first [ rewrite labels_on by dkeep | rewrite labels_align by dat | rewrite labels_row3 by dat | rewrite in_U2 | rewrite in_U3 ].
Lemma all_dates2 : forall s1 s2 r, (forall out, r = Ok out -> dated out /\ forall k, In k (labels out) <-> In k (labels s1) \/ In k (labels s2)) -> all_dates [s1; s2] r.
Proof.
  intros s1 s2 r H out E. destruct (H out E) as [A B]. split; [exact A|]. intros k. unfold labels in B. rewrite B. cbn. split; [intros [?|?]; eauto|]. intros (s & [<-|[<-|[]]] & ?); tauto.
Qed.
Lemma all_dates3 : forall s1 s2 s3 r, (forall out, r = Ok out -> dated out /\ forall k, In k (labels out) <-> In k (labels s1) \/ In k (labels s2) \/ In k (labels s3)) -> all_dates [s1; s2; s3] r.
Proof.
  intros s1 s2 s3 r H out E. destruct (H out E) as [A B]. split; [exact A|]. intros k. unfold labels in B. rewrite B. cbn. split; [intros [?|[?|?]]; eauto 6|]. intros (s & [<-|[<-|[<-|[]]]] & ?); tauto.
Qed.
Lemma all_dates4 : forall s1 s2 s3 s4 r,
  (forall out, r = Ok out -> dated out /\ forall k, In k (labels out) <-> In k (labels s1) \/ In k (labels s2) \/ In k (labels s3) \/ In k (labels s4)) -> all_dates [s1; s2; s3; s4] r.
Proof.
  intros s1 s2 s3 s4 r H out E. destruct (H out E) as [A B]. split; [exact A|]. intros k. unfold labels in B. rewrite B. cbn. split; [intros [?|[?|[?|?]]]; eauto 8|]. intros (s & [<-|[<-|[<-|[<-|[]]]]] & ?); tauto.
Qed.

(** C99, dates: the result has one row for every date that occurs in some input, in order, and no others (the middle of the Keltner channel
    has the dates of the close) *)
Theorem C99_dates : forall (w : Z) (span : R) (mult : num) (sign : bool) (a b c d : ser), dated a -> dated b -> dated c -> dated d ->
  all_dates [a; b; c] (l_average_true_range a b c w)
  /\ (forall view, In view [l_upper; l_lower; l_bandwidth; l_percent_b] -> all_dates [a; b; c] (k <- l_keltner a b c w span mult ;; Ok (view k)))
  /\ all_dates [c] (k <- l_keltner a b c w span mult ;; Ok (l_middle k))
  /\ all_dates [a; b] (l_high_low_volatility a b w)
  /\ all_dates [a; b; c; d] (l_garman_klass_volatility a b c d w)
  /\ all_dates [a; b; c; d] (l_rogers_satchell_volatility a b c d w)
  /\ all_dates [a; b; c; d] (l_yang_zhang_volatility a b c d w)
  /\ all_dates [a; b] (l_becker_parkinson_volatility a b w)
  /\ all_dates [a; b] (l_corwin_schultz_spread a b w)
  /\ all_dates [a; b] (l_roll_impact a b w)
  /\ all_dates [a; b; c; d] (l_edge_spread a b c d w sign)
  /\ all_dates [a; b] (l_vpin a b w)
  /\ all_dates [a; b] (l_kyle_lambda a b w)
  /\ all_dates [a; b] (l_amihud_lambda a b w)
  /\ all_dates [a; b] (l_hasbrouck_lambda a b w).
Proof.
  intros w span mult sign a b c d Ha Hb Hc Hd.
  repeat match goal with |- _ /\ _ => split end.
  - apply all_dates3. intros out. unfold l_average_true_range. destruct (w =? 0)%Z; [discriminate|]. rewrite tr_row3.
    destruct (alpha_cases (1 / IZR w)) as [[e E]|(f & Hf & E)]; rewrite E; intros H; [discriminate|]. injection H as <-. split; [dat|]. intros k. dts. tauto.
  - intros view Hv. apply all_dates3. intros out. unfold l_keltner, l_average_true_range. rewrite tr_row3.
    destruct (ewm_cases span) as [[e E]|(f & Hf & E)]; rewrite E; cbn [bind]; [discriminate|]. destruct (w =? 0)%Z; [discriminate|].
    destruct (alpha_cases (1 / IZR w)) as [[e' E']|(g & Hg & E')]; rewrite E'; cbn [bind]; intros H; [discriminate|]. injection H as <-.
    cbn [In] in Hv. destruct Hv as [<-|[<-|[<-|[<-|[]]]]];
      unfold l_percent_b, l_bandwidth, l_width, l_lower, l_upper, l_middle; cbn [lb_ts lb_mean lb_std lb_mult]; (split; [dat|]; intros k; dts; tauto).
  - intros out. unfold l_keltner. destruct (ewm_cases span) as [[e E]|(f & Hf & E)]; rewrite E; cbn [bind]; [discriminate|].
    destruct (l_average_true_range a b c w) as [s|]; cbn [bind]; intros H; [|discriminate]. injection H as <-. unfold l_middle. cbn [lb_mean]. split; [dat|].
    intros k. change (map fst (on f c)) with (labels (on f c)). rewrite labels_on by dkeep. split; [intros Hk; exists c; split; [left; reflexivity|exact Hk]|intros (s' & [<-|[]] & Hk); exact Hk].
  - apply all_dates2. intros out. unfold l_high_low_volatility. destruct (roll_on_cases w) as [[e E]|(f & Hf & E)]; rewrite !E; cbn [bind]; intros H; [discriminate|]. injection H as <-. split; [dat|]. intros k. dts. tauto.
  - apply all_dates4. intros out. unfold l_garman_klass_volatility. cbv zeta. destruct (roll_on_cases w) as [[e E]|(f & Hf & E)]; rewrite !E; cbn [bind]; intros H; [discriminate|]. injection H as <-. split; [dat|]. intros k. dts. tauto.
  - apply all_dates4. intros out. unfold l_rogers_satchell_volatility, l_rs_terms. destruct (roll_on_cases w) as [[e E]|(f & Hf & E)]; rewrite !E; cbn [bind]; intros H; [discriminate|]. injection H as <-. split; [dat|]. intros k. dts. tauto.
  - apply all_dates4. intros out. unfold l_yang_zhang_volatility, l_rogers_satchell_volatility, l_rs_terms. cbv zeta. destruct (w =? 1)%Z; [discriminate|].
    destruct (roll_on_cases w) as [[e E]|(f & Hf & E)]; rewrite !E; cbn [bind]; intros H; [discriminate|]. injection H as <-. split; [dat|]. intros k. dts. tauto.
  - apply all_dates2. intros out. unfold l_becker_parkinson_volatility, l_beta. destruct (roll_on_cases w) as [[e E]|(f & Hf & E)]; rewrite !E; cbn [bind]; intros H; [discriminate|]. injection H as <-.
    unfold l_sigma. cbv zeta. pose proof (labels_beta_gamma f a b Hf Ha Hb) as [B1 G1].
    rewrite !update_align; [unfold l_gamma; split; [dat|intros k; dts; tauto]|..]; try (unfold l_gamma; dat); rewrite !(labels_on (map _)) by dkeep; congruence.
  - apply all_dates2. intros out. unfold l_corwin_schultz_spread, l_beta. destruct (roll_on_cases w) as [[e E]|(f & Hf & E)]; rewrite !E; cbn [bind]; intros H; [discriminate|]. injection H as <-.
    unfold l_alpha. pose proof (labels_beta_gamma f a b Hf Ha Hb) as [B1 G1].
    rewrite !update_align; [unfold l_gamma; split; [dat|intros k; dts; tauto]|..]; try (unfold l_gamma; dat); rewrite !(labels_on (map _)) by dkeep; congruence.
  - apply all_dates2. intros out. unfold l_roll_impact. destruct (measure_cases w) as [[e E]|(f & Hf & E)]; rewrite !E; cbn [bind]; intros H; [discriminate|]. injection H as <-. split; [dat|]. intros k. dts. tauto.
  - apply all_dates4. intros out. unfold l_edge_spread. rewrite frame_dated by (try discriminate; repeat constructor; assumption). cbn [map nth]. set (U := union _).
    destruct (edge_spread _ _ _ _ w sign) as [v|] eqn:E; cbn [bind]; intros H; [|discriminate]. injection H as <-.
    destruct (firstn_edge _ _ _ _ _ _ 0 _ E) as [L _]. rewrite !map_length in L.
    assert (LU : labels (combine U v) = U) by (apply labels_combine; lia).
    split; [unfold dated; change (map fst (combine U v)) with (labels (combine U v)); rewrite LU; apply sorted_union|]. intros k. rewrite LU. unfold U. rewrite in_union. cbn.
    split; [intros (l & [<-|[<-|[<-|[<-|[]]]]] & H); tauto|intros [H|[H|[H|H]]]; eauto 8].
  - apply all_dates2. intros out. unfold l_vpin. cbv zeta. destruct (roll_on_cases w) as [[e E]|(f & Hf & E)]; rewrite !E; cbn [bind]; intros H; [discriminate|]. injection H as <-. split; [dat|]. intros k. dts. tauto.
  - apply all_dates2. intros out. unfold l_kyle_lambda. cbv zeta. destruct (roll_on_cases w) as [[e E]|(f & Hf & E)]; rewrite !E; cbn [bind]; intros H; [discriminate|]. injection H as <-. split; [dat|]. intros k. dts. tauto.
  - apply all_dates2. intros out. unfold l_amihud_lambda. destruct (roll_on_cases w) as [[e E]|(f & Hf & E)]; rewrite !E; cbn [bind]; intros H; [discriminate|]. injection H as <-. split; [dat|]. intros k. dts. tauto.
  - apply all_dates2. intros out. unfold l_hasbrouck_lambda. cbv zeta. destruct (roll_on_cases w) as [[e E]|(f & Hf & E)]; rewrite !E; cbn [bind]; intros H; [discriminate|]. injection H as <-. split; [dat|]. intros k. dts. tauto.
Qed.
Print Assumptions C99_dates.
Example C99_no_look_ahead_case :
  let p := [(1, Fin 1); (3, Fin 5); (4, Fin 2)]%Z in let v := [(1, Fin 2); (2, Fin 2); (4, Fin 3)]%Z in
  dated p /\ dated v /\ upto 3 p = [(1, Fin 1); (3, Fin 5)]%Z /\ upto 3 v = [(1, Fin 2); (2, Fin 2)]%Z.
Proof. unfold dated. cbn. repeat split; repeat constructor; lia. Qed.

Lemma union_dates_is : forall ss U, union_dates ss U -> U = union (map labels ss).
Proof.
  intros ss U [H1 H2]. apply sorted_same; [exact H1|apply sorted_union|]. intros k. rewrite H2, in_union. split.
  - intros (s & Hs & Hk). exists (labels s). split; [apply in_map; exact Hs|exact Hk].
  - intros (l & Hl & Hk). apply in_map_iff in Hl as (s & <- & Hs). exists s. split; assumption.
Qed.
Lemma union_of : forall ss U s, union_dates ss U -> dated s -> (forall k, In k (labels s) <-> exists u, In u ss /\ In k (map fst u)) -> labels s = U.
Proof. intros ss U s [H1 H2] Hs H. apply sorted_same; [exact Hs|exact H1|]. intros k. rewrite H, H2. reflexivity. Qed.
Ltac atl := repeat first [ rewrite at_align by first [dat | reflexivity] | rewrite at_on_map by first [dat | reflexivity] ].

(** C99, written out: four of the functions can be computed by writing every input out on the union of the dates, NaN where it has no row,
    and applying the function to the values *)
Theorem C99_written_out : forall (w : Z) (sign : bool) (a b c d : ser) (U2 U4 : list Z) (a2 b2 a4 b4 c4 d4 : list num),
  dated a -> dated b -> dated c -> dated d -> union_dates [a; b] U2 -> union_dates [a; b; c; d] U4 ->
  written_out U2 a a2 -> written_out U2 b b2 -> written_out U4 a a4 -> written_out U4 b b4 -> written_out U4 c c4 -> written_out U4 d d4 ->
  l_high_low_volatility a b w = with_dates U2 (high_low_volatility a2 b2 w)
  /\ l_vpin a b w = with_dates U2 (vpin a2 b2 w)
  /\ l_rogers_satchell_volatility a b c d w = with_dates U4 (rogers_satchell_volatility a4 b4 c4 d4 w)
  /\ l_edge_spread a b c d w sign = with_dates U4 (edge_spread a4 b4 c4 d4 w sign).
Proof.
  intros w sign a b c d V2 V4 a2 b2 a4 b4 c4 d4 Ha Hb Hc Hd HU2 HU4 A2 B2 A4 B4 C4 D4.
  apply (written_is _ _ _ Ha) in A2, A4. apply (written_is _ _ _ Hb) in B2, B4. apply (written_is _ _ _ Hc) in C4. apply (written_is _ _ _ Hd) in D4. subst a2 b2 a4 b4 c4 d4.
  repeat match goal with |- _ /\ _ => split end.
  - unfold l_high_low_volatility, high_low_volatility. rewrite (on_res_is _ V2); [|dat|].
    + rewrite lift2_maps, map_map.
      replace (map (at_label (on (map nsqr) (align logratio a b))) V2) with (map (fun k => nsqr (logratio (at_label a k) (at_label b k))) V2).
      2:{ apply map_ext. intros k. atl. reflexivity. }
      unfold rolling. destruct (w <? 0)%Z; [reflexivity|]. cbn [with_dates bind]. rewrite on_series by ln. reflexivity.
    + apply (union_of [a; b]); [exact HU2|dat|]. intros k. dts. unfold labels. cbn. split; [intros [?|?]; eauto|intros (u & [<-|[<-|[]]] & ?); tauto].
  - unfold l_vpin, vpin. cbv zeta. rewrite (on_res_is _ V2); [|dat|].
    + rewrite !lift2_maps, map_map, lift2_maps. f_equal. f_equal. apply map_ext. intros k. atl. reflexivity.
    + apply (union_of [a; b]); [exact HU2|dat|]. intros k. dts. unfold labels. cbn. split; [intros H; assert (In k (map fst a) \/ In k (map fst b)) as [?|?] by tauto; eauto|intros (u & [<-|[<-|[]]] & ?); tauto].
  - unfold l_rogers_satchell_volatility, rogers_satchell_volatility, l_rs_terms, rs_terms. rewrite (on_res_is _ V4); [|dat|].
    + rewrite !lift2_maps. f_equal. f_equal. apply map_ext. intros k. atl. reflexivity.
    + apply (union_of [a; b; c; d]); [exact HU4|dat|]. intros k. dts. unfold labels. cbn.
      split; [intros H; assert (In k (map fst a) \/ In k (map fst b) \/ In k (map fst c) \/ In k (map fst d)) as [?|[?|[?|?]]] by tauto; eauto 8|intros (u & [<-|[<-|[<-|[<-|[]]]]] & ?); tauto].
  - unfold l_edge_spread. rewrite frame_dated by (try discriminate; repeat constructor; assumption). cbn [map nth].
    replace (union [labels c; labels a; labels b; labels d]) with V4.
    + destruct (edge_spread _ _ _ _ w sign); reflexivity.
    + rewrite (union_dates_is _ _ HU4). apply sorted_same; [apply sorted_union|apply sorted_union|]. intros k. rewrite !in_union. cbn.
      split; intros (l & [<-|[<-|[<-|[<-|[]]]]] & H); eauto 8.
Qed.
Print Assumptions C99_written_out.
Ltac wo := split; [intros y Hy; repeat destruct Hy as [Hy|Hy]; try (destruct Hy; fail); congruence | intros Hn; try reflexivity; exfalso; eapply Hn; cbn; eauto].
Example C99_written_out_case :
  let a := [(1, Fin 4); (2, Fin 6)]%Z in let b := [(2, Fin 3); (5, Fin 2)]%Z in
  union_dates [a; b] [1; 2; 5]%Z /\ written_out [1; 2; 5]%Z a [Fin 4; Fin 6; NaN] /\ written_out [1; 2; 5]%Z b [NaN; Fin 3; Fin 2].
Proof.
  cbv zeta. split; [|split].
  - split; [repeat constructor; lia|]. intros k. cbn. split.
    + intros [<-|[<-|[<-|[]]]]; [eexists; split; [left; reflexivity|cbn; tauto]..|eexists; split; [right; left; reflexivity|cbn; tauto]].
    + intros (s & [<-|[<-|[]]] & H); cbn in H; tauto.
  - split; [reflexivity|]. intros [|[|[|i]]] Hi; cbn in *; try lia; wo.
  - split; [reflexivity|]. intros [|[|[|i]]] Hi; cbn in *; try lia; wo.
Qed.

(** C99, price changes: functions that take a price change first do so between neighbouring dates of the price itself, so writing the inputs
    out on the union of the dates gives other numbers *)
Theorem C99_written_out_refuted : exists (p v : ser) (U : list Z) (p' v' : list num),
  dated p /\ dated v /\ union_dates [p; v] U /\ written_out U p p' /\ written_out U v v'
  /\ l_kyle_lambda p v 1 = Ok [(1, NaN); (2, NaN); (3, Fin (3 / 2))]%Z
  /\ with_dates U (kyle_lambda p' v' 1) = Ok [(1, NaN); (2, NaN); (3, NaN)]%Z.
Proof.
  exists [(1, Fin 1); (3, Fin 4)]%Z, [(1, Fin 2); (2, Fin 2); (3, Fin 2)]%Z, [1; 2; 3]%Z, [Fin 1; NaN; Fin 4], [Fin 2; Fin 2; Fin 2].
  split; [repeat constructor; lia|]. split; [repeat constructor; lia|]. split.
  { split; [repeat constructor; lia|]. intros k. cbn. split.
    + intros [<-|[<-|[<-|[]]]]; (eexists; split; [right; left; reflexivity|cbn; tauto]).
    + intros (s & [<-|[<-|[]]] & H); cbn in H; tauto. }
  split; [split; [reflexivity|]; intros [|[|[|i]]] Hi; cbn in *; try lia; wo|].
  split; [split; [reflexivity|]; intros [|[|[|i]]] Hi; cbn in *; try lia; wo|].
  split.
  - unfold l_kyle_lambda, on, on_res, align, frame, same_labels, at_label, diff, shift, lift2, rolling, roll, roll_at, agg_mean, nmean. cbn.
    change (Pos.to_nat 1) with 1%nat. cbn. unfold rltb. repeat (destruct Rlt_dec; try lra). cbn. unfold reqb. repeat (destruct Req_EM_T; try lra). cbn. unfold reqb. repeat (destruct Req_EM_T; try lra).
    do 5 f_equal. f_equal. lra.
  - unfold kyle_lambda, diff, shift, lift2, rolling, roll, roll_at, agg_mean, nmean. cbn. change (Pos.to_nat 1) with 1%nat. cbn. reflexivity.
Qed.

Lemma nan_l : forall x, nsub NaN x = NaN /\ nadd NaN x = NaN /\ nmul NaN x = NaN /\ ndiv NaN x = NaN /\ logratio NaN x = NaN.
Proof. intros x. repeat split; reflexivity. Qed.
Lemma nan_r : forall x, nsub x NaN = NaN /\ nadd x NaN = NaN /\ nmul x NaN = NaN /\ ndiv x NaN = NaN /\ logratio x NaN = NaN.
Proof. intros x. destruct x; repeat split; reflexivity. Qed.
(** the rolling mean of a Series is missing where a value of the window is *)
Lemma gaps_roll : forall ss w s (g : num -> num), dated s -> g NaN = NaN -> (forall k u, In u ss -> ~ In k (map fst u) -> at_label s k = NaN) ->
  gaps_are_missing ss w (r <- on_res (rolling w agg_mean) s ;; Ok (on (map g) r)).
Proof.
  intros ss w s g Hs Hg H out i j E Hij Hw (u & Hu & Hout). unfold on_res, rolling in E. destruct (w <? 0)%Z eqn:Ew; [discriminate|]. cbn [bind] in E. injection E as <-.
  fold (on (roll (Z.to_nat w) agg_mean) s) in *. set (r := on (roll (Z.to_nat w) agg_mean) s) in *.
  assert (Lr : labels (on (map g) r) = labels s) by (unfold r; rewrite !labels_on by dkeep; reflexivity).
  assert (Vr : values (on (map g) r) = map g (roll (Z.to_nat w) agg_mean (values s))) by (rewrite values_on by dkeep; unfold r; rewrite values_on by dkeep; reflexivity).
  assert (LL : length (on (map g) r) = length s) by (rewrite <- len_labels, Lr; apply len_labels).
  rewrite LL in Hij.
  change (snd (nth i (on (map g) r) (0%Z, NaN)) = NaN). rewrite <- (map_nth snd). fold (values (on (map g) r)). rewrite Vr. change (snd (0%Z, NaN)) with NaN.
  rewrite <- Hg at 1. rewrite map_nth. rewrite nth_roll by (rewrite len_values; lia). rewrite roll_at_none; [exact Hg|rewrite len_values; lia|].
  intros v (W1 & W2 & W3). specialize (W3 (j - (S i - Z.to_nat w))%nat ltac:(lia)).
  replace (S i - Z.to_nat w + (j - (S i - Z.to_nat w)))%nat with j in W3 by lia.
  rewrite <- (map_nth fst) in Hout. fold (labels (on (map g) r)) in Hout. rewrite Lr in Hout. change (fst (0%Z, NaN)) with 0%Z in Hout.
  specialize (H _ u Hu Hout). rewrite <- (values_reindex s Hs) in W3. rewrite nth_map_lab in W3 by (rewrite len_labels; lia). congruence.
Qed.
Lemma gaps_roll_id : forall ss w s, dated s -> (forall k u, In u ss -> ~ In k (map fst u) -> at_label s k = NaN) -> gaps_are_missing ss w (on_res (rolling w agg_mean) s).
Proof.
  intros ss w s Hs H. assert (G := gaps_roll ss w s (fun x => x) Hs eq_refl H). intros out i j E. apply (G out i j). rewrite E. cbn [bind]. f_equal.
  unfold on. rewrite map_id. unfold labels, values. clear. induction out as [|[k x] out IH]; cbn; [reflexivity|]. f_equal. exact IH.
Qed.
Ltac nans := repeat first [ rewrite (proj1 (nan_l _)) | rewrite (proj1 (proj2 (nan_l _))) | rewrite (proj1 (proj2 (proj2 (nan_l _)))) | rewrite (proj1 (proj2 (proj2 (proj2 (nan_l _))))) | rewrite (proj2 (proj2 (proj2 (proj2 (nan_l _)))))
  | rewrite (proj1 (nan_r _)) | rewrite (proj1 (proj2 (nan_r _))) | rewrite (proj1 (proj2 (proj2 (nan_r _)))) | rewrite (proj1 (proj2 (proj2 (proj2 (nan_r _))))) | rewrite (proj2 (proj2 (proj2 (proj2 (nan_r _))))) ].

(** C99, gaps: where one of the inputs has no row on one of the dates of the window, these functions give a missing value, never a number from
    the rows that are there *)
Theorem C99_gaps : forall (w : Z) (a b c d : ser), dated a -> dated b -> dated c -> dated d ->
  gaps_are_missing [a; b] w (l_high_low_volatility a b w)
  /\ gaps_are_missing [a; b; c; d] w (l_rogers_satchell_volatility a b c d w)
  /\ gaps_are_missing [a; b] w (l_vpin a b w)
  /\ gaps_are_missing [a; b] w (l_kyle_lambda a b w)
  /\ gaps_are_missing [a; b] w (l_amihud_lambda a b w)
  /\ gaps_are_missing [a; b] w (l_hasbrouck_lambda a b w).
Proof.
  intros w a b c d Ha Hb Hc Hd. repeat match goal with |- _ /\ _ => split end.
  - unfold l_high_low_volatility. apply gaps_roll; [dat|reflexivity|]. intros k u Hu Hk. atl. destruct Hu as [<-|[<-|[]]]; rewrite (at_label_out _ _ Hk); nans; reflexivity.
  - unfold l_rogers_satchell_volatility, l_rs_terms. apply gaps_roll_id; [dat|]. intros k u Hu Hk. atl. destruct Hu as [<-|[<-|[<-|[<-|[]]]]]; rewrite (at_label_out _ _ Hk); nans; reflexivity.
  - unfold l_vpin. cbv zeta. apply gaps_roll_id; [dat|]. intros k u Hu Hk. atl. destruct Hu as [<-|[<-|[]]]; rewrite (at_label_out _ _ Hk); nans; reflexivity.
  - unfold l_kyle_lambda. cbv zeta. apply gaps_roll_id; [dat|]. intros k u Hu Hk. atl. destruct Hu as [<-|[<-|[]]]; [rewrite (at_on_out (diff 1) _ _ ltac:(dkeep) Hk)|rewrite (at_label_out _ _ Hk)]; nans; reflexivity.
  - unfold l_amihud_lambda. apply gaps_roll_id; [dat|]. intros k u Hu Hk. atl. destruct Hu as [<-|[<-|[]]]; [rewrite (at_on_out (fun l => map nabs (pct_change l)) _ _ ltac:(dkeep) Hk)|rewrite (at_label_out _ _ Hk)]; nans; reflexivity.
  - unfold l_hasbrouck_lambda. cbv zeta. apply gaps_roll_id; [dat|]. intros k u Hu Hk. atl. destruct Hu as [<-|[<-|[]]]; rewrite (at_label_out _ _ Hk); nans; cbn [nsqrt]; nans; reflexivity.
Qed.
Print Assumptions C99_gaps.
(** date 2 has a volume and no price: with windows of one row only that date is missing *)
Example C99_gaps_case : ~ In 2%Z (map fst [(1, Fin 1); (3, Fin 4)]%Z) /\ exists out, l_vpin [(1, Fin 4); (2, Fin 2); (3, Fin 1)]%Z [(1, Fin 1); (3, Fin 4)]%Z 1 = Ok out /\ length out = 3%nat.
Proof. split; [cbn; lia|]. eexists. split; [reflexivity|]. reflexivity. Qed.

(** C99, estimated buy volume: the distribution function is applied to an array, so the volume is paired by position, not by date.  The result
    has the dates of the volume; its i-th value uses the i-th date of the union of price and sigma dates; other lengths are refused, unless price and sigma have a
    single date between them: then nothing is known about price changes and every value is NaN (if the distribution function keeps NaN). *)
Theorem C99_buy_volume : forall (cdf : num -> num) (p v s : ser) (U : list Z), dated p -> dated v -> dated s -> union_dates [p; s] U ->
  (length U <> length v -> length U <> 1%nat -> l_estimate_buy_volume cdf p v s = Raise ValueError)
  /\ (length U <> length v -> length U = 1%nat -> cdf NaN = NaN -> l_estimate_buy_volume cdf p v s = Ok (map (fun kv => (fst kv, NaN)) v))
  /\ (length U = length v -> exists out, l_estimate_buy_volume cdf p v s = Ok out /\ map fst out = map fst v
      /\ forall i, (i < length v)%nat -> nth i (map snd out) NaN
           = nmul (nth i (map snd v) NaN) (cdf (ndiv (at_label (series (map fst p) (diff 1 (map snd p))) (nth i U 0%Z)) (at_label s (nth i U 0%Z))))).
Proof.
  intros cdf p v s U Hp Hv Hs HU. unfold l_estimate_buy_volume.
  assert (L : labels (align ndiv (on (diff 1) p) s) = U).
  { rewrite labels_align by dat. unfold Lab_Proofs.U2. rewrite labels_on by dkeep. rewrite (union_dates_is _ _ HU). reflexivity. }
  assert (LL : length (align ndiv (on (diff 1) p) s) = length U) by (rewrite <- L; symmetry; apply len_labels).
  rewrite LL. split; [|split]; intros E.
  - intros E1. rewrite (proj2 (Nat.eqb_neq _ _) E), (proj2 (Nat.eqb_neq _ _) E1). reflexivity.
  - intros E1 Hn. rewrite (proj2 (Nat.eqb_neq _ _) E), E1. cbn [Nat.eqb].
    assert (Z0 : nth 0 (values (align ndiv (on (diff 1) p) s)) NaN = NaN).
    { rewrite <- (values_reindex (align ndiv (on (diff 1) p) s)) by dat. rewrite L. destruct U as [|u [|u' U]]; try discriminate. cbn [map nth].
      rewrite at_align by (try dat; reflexivity). destruct p as [|[k x] [|[k' x'] p]].
      - cbn. reflexivity.
      - unfold on, diff, shift, lift2. cbn. assert (X : at_label [(k, nsub x NaN)] u = NaN) by (rewrite nsub_nan_r; unfold at_label; cbn; destruct (_ =? _)%Z; reflexivity). rewrite X. reflexivity.
      - exfalso. assert (I1 : In k [u]) by (apply (proj2 HU); exists ((k, x) :: (k', x') :: p); split; [left; reflexivity|left; reflexivity]).
        assert (I2 : In k' [u]) by (apply (proj2 HU); exists ((k, x) :: (k', x') :: p); split; [left; reflexivity|right; left; reflexivity]).
        destruct I1 as [<-|[]], I2 as [E2|[]]. subst k'. unfold dated in Hp. cbn [map fst] in Hp. apply StronglySorted_inv in Hp as [_ Hp]. apply Forall_inv in Hp. lia. }
    rewrite Z0, Hn. unfold on. f_equal. unfold labels, values. clear. induction v as [|[k x] v IH]; [reflexivity|]. cbn [map fst snd combine]. rewrite IH. destruct x; reflexivity.
  - rewrite (proj2 (Nat.eqb_eq _ _) E). eexists. split; [reflexivity|].
    assert (LV : length (values (align ndiv (on (diff 1) p) s)) = length v) by (rewrite len_values; lia).
    assert (LX : length (lift2 nmul (values v) (map cdf (values (align ndiv (on (diff 1) p) s)))) = length (labels v)) by (rewrite len_lift2, map_length, LV, len_values, len_labels; lia).
    split; [apply labels_combine; exact LX|].
    intros i Hi. fold (values (combine (labels v) (lift2 nmul (values v) (map cdf (values (align ndiv (on (diff 1) p) s)))))). rewrite values_combine by exact LX.
    rewrite <- (values_reindex (align ndiv (on (diff 1) p) s)) by dat. rewrite L, map_map. unfold lift2. rewrite nth_seq_map' by (rewrite map_length, len_values; lia).
    f_equal. rewrite (nth_map_lab (fun x => cdf (at_label (align ndiv (on (diff 1) p) s) x))) by lia. f_equal. rewrite at_align by (try dat; reflexivity). reflexivity.
Qed.
Print Assumptions C99_buy_volume.
Example C99_buy_volume_case : union_dates [[(2, Fin 1); (3, Fin 4)]; [(2, Fin 1); (3, Fin 1)]]%Z [2; 3]%Z.
Proof.
  split; [repeat constructor; lia|]. intros k. cbn. split.
  + intros [<-|[<-|[]]]; (eexists; split; [left; reflexivity|cbn; tauto]).
  + intros (s & [<-|[<-|[]]] & H); cbn in H; tauto.
Qed.
(** one date of prices, three of volumes *)
Example C99_buy_volume_single : union_dates [[(2, Fin 1)]; [(2, Fin 1)]]%Z [2]%Z
  /\ l_estimate_buy_volume (fun x => x) [(2, Fin 1)]%Z [(1, Fin 5); (2, Fin 6); (3, Fin 7)]%Z [(2, Fin 1)]%Z = Ok [(1, NaN); (2, NaN); (3, NaN)]%Z.
Proof.
  split; [|reflexivity]. split; [repeat constructor; lia|]. intros k. cbn. split.
  + intros [<-|[]]. eexists; split; [left; reflexivity|cbn; tauto].
  + intros (s & [<-|[<-|[]]] & H); cbn in H; tauto.
Qed.
(** ... so with a volume whose dates lie before those of the price, the value of an early date comes from a price of a later one *)
Theorem C99_buy_volume_refuted : exists (p p' v s : ser) (t : Z), dated p /\ dated p' /\ dated v /\ dated s
  /\ upto t p = upto t p' /\ exists out out', l_estimate_buy_volume (fun x => x) p v s = Ok out /\ l_estimate_buy_volume (fun x => x) p' v s = Ok out'
  /\ upto t out <> upto t out'.
Proof.
  exists [(1, Fin 1); (2, Fin 1); (9, Fin 4)]%Z, [(1, Fin 1); (2, Fin 1); (9, Fin 5)]%Z, [(1, Fin 1); (2, Fin 1); (3, Fin 1)]%Z, [(1, Fin 1); (2, Fin 1); (9, Fin 1)]%Z, 3%Z.
  do 4 (split; [repeat constructor; cbn; lia|]). split; [reflexivity|].
  unfold l_estimate_buy_volume, on, align, frame, same_labels, at_label, diff, shift, lift2. cbn. unfold reqb. repeat (destruct Req_EM_T; try lra). cbn.
  do 2 eexists. split; [reflexivity|]. split; [reflexivity|]. cbn. intros E. injection E as E. unfold reqb in E. destruct (Req_EM_T 1 0); [lra|]. injection E. lra.
Qed.
