(** Property C120: groups given as an array of fixed-width integers. *)
From Coq Require Import List ZArith Bool Arith Lia Sorted.
From Verif Require Import Base Split_Model Split_Proofs Kfold_Proofs Kfold_Props Split_Props Word_Model.
Import ListNotations.
Open Scope Z_scope.

(** the numbers a type can hold: 0 .. 2^w - 1, or -2^(w-1) .. 2^(w-1) - 1 *)
Definition holds (t : word) (z : Z) : Prop :=
  match t with Unsigned w => 0 <= z < 2 ^ Zpos w | Signed w => - 2 ^ (Zpos w - 1) <= z < 2 ^ (Zpos w - 1) end.
Definition unsigned (t : word) : Prop := match t with Unsigned _ => True | Signed _ => False end.

Lemma two_bits : forall t, 0 < 2 ^ bits t.
Proof. intros [w|w]; cbn [bits]; apply Z.pow_pos_nonneg; lia. Qed.
Lemma holds_low : forall t z, holds t z <-> low t <= z < low t + 2 ^ bits t.
Proof.
  intros [w|w] z; cbn [holds low bits]; [lia|]. assert (E : 2 ^ Z.pos w = 2 * 2 ^ (Z.pos w - 1)) by (rewrite <- Z.pow_succ_r by lia; f_equal; lia). lia.
Qed.
Lemma fitsb_spec : forall t z, fitsb t z = true <-> holds t z.
Proof. intros t z. rewrite holds_low. unfold fitsb. rewrite andb_true_iff, Z.leb_le, Z.ltb_lt. reflexivity. Qed.
Lemma wrap_holds : forall t z, holds t z -> wrap t z = z.
Proof. intros t z H. apply holds_low in H. unfold wrap. rewrite Z.mod_small by lia. lia. Qed.
Lemma wrap_range : forall t z, holds t (wrap t z).
Proof. intros t z. apply holds_low. unfold wrap. pose proof (Z.mod_pos_bound (z - low t) (2 ^ bits t) (two_bits t)). lia. Qed.
Lemma wrap_above : forall t z, low t + 2 ^ bits t <= z < low t + 2 * 2 ^ bits t -> wrap t z = z - 2 ^ bits t.
Proof. intros t z H. unfold wrap. rewrite <- (Z.mod_unique (z - low t) (2 ^ bits t) 1 (z - low t - 2 ^ bits t)); lia. Qed.
Lemma wrap_below : forall t z, low t - 2 ^ bits t <= z < low t -> wrap t z = z + 2 ^ bits t.
Proof. intros t z H. unfold wrap. rewrite <- (Z.mod_unique (z - low t) (2 ^ bits t) (-1) (z - low t + 2 ^ bits t)); lia. Qed.

(* ------------------------------------------------------------------ *)
(** ** where nothing wraps the splitter is the one of C01-C08 *)
Lemma w_sortedb_eq : forall t v, (forall i, (S i < length v)%nat -> holds t (nth (S i) v 0 - nth i v 0)) -> w_sortedb t v = sortedb v.
Proof.
  intros t v. induction v as [|a v IH]; intros H; [reflexivity|]. destruct v as [|b v]; [reflexivity|]. cbn [w_sortedb sortedb]. f_equal.
  - rewrite wrap_holds by (apply (H 0%nat); cbn [length]; lia). destruct (Z.leb_spec 0 (b - a)), (Z.leb_spec a b); auto; lia.
  - apply IH. intros i Hi. apply (H (S i)). cbn [length] in *. lia.
Qed.

Theorem C120_in_range : forall t c n v e p, kf_embargo c = DInt e -> kf_purge c = DInt p -> kf_freq c = None ->
  holds t e -> holds t p ->
  (forall i, (S i < length v)%nat -> holds t (nth (S i) v 0 - nth i v 0)) -> (forall x, In x v -> holds t (x + p) /\ holds t (x - e)) ->
  w_kfold_split t c n v = kfold_split c (XArr n) YNone (GArr (mkG ArrInt v)).
Proof.
  intros t c n v e p He Hp Hf Fe Fp Hd Hx. assert (Es := w_sortedb_eq t v Hd).
  assert (Sel : forall ix m, sel_max (mkG ArrInt v) ix = Ok m -> exists x, m = Some x /\ In x v).
  { intros ix m E. assert (Q := sel_max_spec _ _ _ E). destruct m as [m|]; [|destruct Q as [_ Q]; cbn in Q; congruence]. exists m. split; [reflexivity|]. destruct Q as [(j & J1 & <-) _].
    unfold sel_max in E. destruct (mapM (getitem (mkG ArrInt v)) ix) as [vs|] eqn:Ev; [|discriminate]. destruct (mapM_getitem _ _ _ Ev) as [_ A]. apply nth_In. apply (A j J1). }
  assert (Sel' : forall ix m, sel_min (mkG ArrInt v) ix = Ok m -> exists x, m = Some x /\ In x v).
  { intros ix m E. assert (Q := sel_min_spec _ _ _ E). destruct m as [m|]; [|destruct Q as [_ Q]; cbn in Q; congruence]. exists m. split; [reflexivity|]. destruct Q as [(j & J1 & <-) _].
    unfold sel_min in E. destruct (mapM (getitem (mkG ArrInt v)) ix) as [vs|] eqn:Ev; [|discriminate]. destruct (mapM_getitem _ _ _ Ev) as [_ A]. apply nth_In. apply (A j J1). }
  assert (Ep : forall tr te ix, w_purge t tr te ix v (DInt p) = purge tr te ix (mkG ArrInt v) (DInt p)).
  { intros tr te ix. unfold w_purge, purge, w_validate, validate_purge_embargo_inputs. cbn [g_kind g_val]. rewrite Es. destruct (p <? 0); [reflexivity|]. destruct (sortedb v); [|reflexivity]. cbn [bind].
    destruct (sel_max (mkG ArrInt v) te) as [m|] eqn:Em; [|reflexivity]. destruct (Sel _ _ Em) as (x & -> & Ix). cbn [bind]. unfold w_add. rewrite (proj2 (fitsb_spec t p) Fp). cbn [option_map bind plus_delta_o plus_delta is_time].
    rewrite wrap_holds by (apply Hx; exact Ix). reflexivity. }
  assert (Ee : forall tr te ix, w_embargo t tr te ix v (DInt e) = embargo tr te ix (mkG ArrInt v) (DInt e)).
  { intros tr te ix. unfold w_embargo, embargo, w_validate, validate_purge_embargo_inputs. cbn [g_kind g_val]. rewrite Es. destruct (e <? 0); [reflexivity|]. destruct (sortedb v); [|reflexivity]. cbn [bind].
    destruct (sel_min (mkG ArrInt v) te) as [m|] eqn:Em; [|reflexivity]. destruct (Sel' _ _ Em) as (x & -> & Ix). cbn [bind]. unfold w_sub. rewrite (proj2 (fitsb_spec t e) Fe). cbn [option_map bind plus_delta_o plus_delta neg_delta is_time].
    rewrite wrap_holds by (apply Hx; exact Ix). reflexivity. }
  assert (El : forall ix ts, w_loop t ix v (kf_look c) (DInt e) (DInt p) ts = kfold_loop ix (mkG ArrInt v) (kf_look c) (DInt e) (DInt p) ts).
  { intros ix ts. induction ts as [|te ts IH]; [reflexivity|]. cbn [w_loop kfold_loop]. rewrite IH.
    assert (Et : w_train t ix te v (kf_look c) (DInt e) (DInt p) = kfold_train ix te (mkG ArrInt v) (kf_look c) (DInt e) (DInt p)).
    { unfold w_train, kfold_train. destruct (get_train_index_per_split ix te (mkG ArrInt v) (kf_look c)) as [tr|]; [|reflexivity]. cbn [bind]. rewrite Ep. destruct (purge tr te ix (mkG ArrInt v) (DInt p)) as [tr'|]; [|reflexivity]. cbn [bind]. apply Ee. }
    rewrite Et. reflexivity. }
  unfold w_kfold_split, kfold_split, kfold_prepare, w_basecv, basecv_split. cbn [g_val x_rows]. rewrite Es, Hf, He, Hp. cbn [fst snd].
  destruct (sortedb v); [|reflexivity]. cbn [bind]. destruct (validate_split_settings n (kf_folds c) (DInt e) (DInt p)); [|reflexivity]. cbn [bind].
  destruct (Nat.eqb (length v) (length (seq 0 n))); [|reflexivity]. destruct (mapM fold_bound _) as [bs|]; [|reflexivity]. cbn [bind]. destruct (modify_fold_bounds_all (mkG ArrInt v) bs) as [bs'|]; [|reflexivity]. cbn [bind]. apply El.
Qed.
Print Assumptions C120_in_range.
Example C120_in_range_example : let c := mkKF 3 (DInt 1) (DInt 1) false None in let v := [10; 11; 12; 13; 14; 15] in
  holds (Unsigned 8) 1 /\ (forall x, In x v -> holds (Unsigned 8) (x + 1) /\ holds (Unsigned 8) (x - 1)) /\
  yields (w_kfold_split (Unsigned 8) c 6 v) = [([3; 4; 5], [0; 1]); ([0; 5], [2; 3]); ([0; 1; 2], [4; 5])]%nat.
Proof. cbv zeta. split; [cbn; lia|]. split; [intros x H; cbn in H; cbn; intuition lia|vm_compute; reflexivity]. Qed.

(* ------------------------------------------------------------------ *)
(** ** unsigned groups are never found to be unsorted *)
Lemma w_sortedb_unsigned : forall t v, unsigned t -> w_sortedb t v = true.
Proof.
  intros t v U. induction v as [|a v IH]; [reflexivity|]. destruct v as [|b v]; [reflexivity|]. cbn [w_sortedb]. rewrite andb_true_iff. split; [|exact IH].
  apply Z.leb_le. pose proof (wrap_range t (b - a)) as W. destruct t as [w|w]; [cbn [holds] in W; lia|destruct U].
Qed.
Theorem C120_unsigned_order : forall t c n v, unsigned t -> 2 <= kf_folds c ->
  w_basecv t v = Ok tt /\
  (kf_freq c = None -> length v = n -> validate_split_settings n (kf_folds c) (kf_embargo c) (kf_purge c) = Ok tt -> NoDup v ->
   exists r, w_kfold_split t c n v = w_loop t (seq 0 n) v (kf_look c) (kf_embargo c) (kf_purge c) r /\
     r = (if kf_look c then tl (array_split (seq 0 n) (Z.to_nat (kf_folds c))) else array_split (seq 0 n) (Z.to_nat (kf_folds c)))).
Proof.
  intros t c n v U Hk. assert (E : w_basecv t v = Ok tt) by (unfold w_basecv; rewrite w_sortedb_unsigned by exact U; reflexivity). split; [exact E|]. intros Hf Hn Hv Nv.
  eexists. split; [|reflexivity]. unfold w_kfold_split. rewrite E, Hv, Hf. cbn [bind fst snd]. rewrite seq_length, Hn, Nat.eqb_refl.
  assert (Hle : kf_folds c <= Z.of_nat n) by (unfold validate_split_settings in Hv; destruct (Z.ltb_spec (Z.of_nat n) (kf_folds c)); [discriminate|lia]).
  destruct (array_split_bounds n (Z.to_nat (kf_folds c)) ltac:(lia)) as (bs & B1 & _ & B2 & B3 & B4). rewrite B1. cbn [bind].
  assert (M : forall rest cur p, adj p (cur :: rest) n -> modify_fold_bounds (mkG ArrInt v) cur rest = Ok (cur :: rest)).
  { induction rest as [|nxt rest IH]; intros [a b] p Ha; [reflexivity|]. destruct Ha as (-> & A1 & A2). assert (A2' := A2). destruct nxt as [a' b']. destruct A2' as (-> & A3 & A4). apply adj_le in A4. cbn [modify_fold_bounds fst snd].
    rewrite !getitem_in by (cbn [g_val]; lia). cbn [bind]. unfold gat. cbn [g_val]. destruct (Z.eqb_spec (nth b v 0) (nth (S b) v 0)) as [Eq|].
    - exfalso. apply (proj1 (NoDup_nth v 0) Nv) in Eq; lia.
    - rewrite (IH (S b, b') (S b) A2). reflexivity. }
  unfold modify_fold_bounds_all. destruct bs as [|b bs]; [cbn in B4; lia|]. rewrite (M bs b 0%nat B3). cbn [bind]. rewrite <- B2. reflexivity.
Qed.
Print Assumptions C120_unsigned_order.

(** so unsorted unsigned groups are split, and a test fold can share its groups with the training set; signed groups are rejected *)
Theorem C120_unsorted_refuted : exists c v, forall w, (2 <= Zpos w) ->
  (exists tr te i j, In (tr, te) (yields (w_kfold_split (Unsigned w) c 4 v)) /\ In i tr /\ In j te /\ nth i v 0 = nth j v 0) /\
  w_kfold_split (Signed w) c 4 v = mkGen [] (Raised ValueError).
Proof.
  exists (mkKF 2 (DInt 0) (DInt 0) false None), [0; 1; 0; 1]. intros w Hw. assert (P : 4 <= 2 ^ Z.pos w) by (change 4 with (2 ^ 2); apply Z.pow_le_mono_r; lia).
  split.
  - exists [2; 3]%nat, [0; 1]%nat, 2%nat, 0%nat. split; [|cbn; auto]. unfold w_kfold_split, w_basecv. rewrite w_sortedb_unsigned by exact I. cbn [bind kf_folds kf_embargo kf_purge kf_look kf_freq fst snd].
    change (validate_split_settings 4 2 (DInt 0) (DInt 0)) with (@Ok unit tt). cbn [bind length]. change (Nat.eqb 4 (length (seq 0 4))) with true. cbv iota.
    change (mapM fold_bound (array_split (seq 0 4) (Z.to_nat 2))) with (@Ok (list (nat * nat)) [(0, 1); (2, 3)]%nat). cbn [bind].
    change (modify_fold_bounds_all (mkG ArrInt [0; 1; 0; 1]) [(0, 1); (2, 3)]%nat) with (@Ok (list (nat * nat)) [(0, 1); (2, 3)]%nat). cbn [bind map]. change (bound_range (0, 1)%nat) with [0; 1]%nat. change (bound_range (2, 3)%nat) with [2; 3]%nat.
    cbn [w_loop]. unfold w_train. change (get_train_index_per_split (seq 0 4) [0; 1]%nat (mkG ArrInt [0; 1; 0; 1]) false) with (@Ok (list nat) [2; 3]%nat). cbn [bind].
    assert (A : forall m, holds (Unsigned w) m -> w_add (Unsigned w) (Some m) 0 = Ok (Some m)).
    { intros m Hm. unfold w_add. rewrite (proj2 (fitsb_spec (Unsigned w) 0)) by (cbn; lia). cbn [option_map]. rewrite Z.add_0_r, wrap_holds by exact Hm. reflexivity. }
    assert (B : forall m, holds (Unsigned w) m -> w_sub (Unsigned w) (Some m) 0 = Ok (Some m)).
    { intros m Hm. unfold w_sub. rewrite (proj2 (fitsb_spec (Unsigned w) 0)) by (cbn; lia). cbn [option_map]. rewrite Z.sub_0_r, wrap_holds by exact Hm. reflexivity. }
    unfold w_purge, w_embargo, w_validate. rewrite w_sortedb_unsigned by exact I. change (0 <? 0) with false. cbv iota. cbn [bind].
    change (sel_max (mkG ArrInt [0; 1; 0; 1]) [0; 1]%nat) with (@Ok (option Z) (Some 1)). change (sel_min (mkG ArrInt [0; 1; 0; 1]) [0; 1]%nat) with (@Ok (option Z) (Some 0)). cbn [bind].
    rewrite A by (cbn [holds]; lia). rewrite B by (cbn [holds]; lia). cbn [bind]. left. reflexivity.
  - unfold w_kfold_split, w_basecv. cbn [w_sortedb]. replace (1 - 0) with 1 by lia. replace (0 - 1) with (-1) by lia.
    assert (H1 : 2 <= 2 ^ (Z.pos w - 1)) by (change 2 with (2 ^ 1) at 1; apply Z.pow_le_mono_r; lia).
    rewrite !wrap_holds by (cbn [holds]; lia). reflexivity.
Qed.
Print Assumptions C120_unsorted_refuted.

(* ------------------------------------------------------------------ *)
(** ** a purge or embargo bound that leaves the range of the type removes nothing *)
Theorem C120_purge : forall t train test n v a r, length v = n -> (forall x, In x v -> holds t x) -> test <> [] -> (forall j, In j test -> (j < n)%nat) -> (forall i, In i train -> (i < n)%nat) ->
  w_purge t train test (seq 0 n) v (DInt a) = Ok r -> exists m, (exists j, In j test /\ nth j v 0 = m) /\ (forall j, In j test -> nth j v 0 <= m) /\
  (holds t (m + a) -> forall i, In i r <-> In i train /\ ~ (m < nth i v 0 <= m + a)) /\
  (~ holds t (m + a) -> forall i, In i r <-> In i train).
Proof.
  intros t train test n v a r Hn Hv Ht Hlt Hi E. unfold w_purge in E. apply bind_ok in E as (a' & Ea & E).
  assert (Q : a' = a /\ 0 <= a) by (unfold w_validate in Ea; destruct (Z.ltb_spec a 0); [discriminate|]; destruct (w_sortedb t v); [injection Ea as <-; auto|discriminate]). destruct Q as [-> Ha].
  apply bind_ok in E as (mx & Em & E). assert (Q := sel_max_spec _ _ _ Em). destruct mx as [m|]; [|destruct Q as [Q _]; contradiction]. destruct Q as [(jx & J1 & J2) J3]. unfold gat in J2, J3. cbn [g_val] in J2, J3.
  apply bind_ok in E as (hi & Eh & E). unfold w_add in Eh. destruct (fitsb t a) eqn:Fa; [|discriminate]. injection Eh as <-. apply fitsb_spec in Fa. cbn [option_map] in E.
  apply bind_ok in E as (pg & Ep & E). apply mask_select_seq in Ep as [_ ->]. cbv zeta in E. destruct (setdiff1d train _) eqn:Es; [discriminate|]. rewrite <- Es in E. match type of E with Ok ?b = Ok r => assert (Hr : r = b) by congruence end. clear E.
  assert (Hm : forall i, In i r <-> In i train /\ ~ (m < nth i v 0 <= wrap t (m + a))).
  { intros i. subst r. rewrite !In_setdiff1d, filter_In, in_seq. unfold cmp_o, gat. cbn [g_val]. rewrite andb_true_iff, Z.leb_le, Z.gtb_lt. specialize (Hi i). split.
    - intros [[A B] _]. split; [exact A|]. intros C. apply B. split; [|lia]. specialize (Hi A). lia.
    - intros [A B]. assert (~ ((0 <= i < 0 + n)%nat /\ nth i v 0 <= wrap t (m + a) /\ m < nth i v 0)) by (intros (_ & C1 & C2); apply B; lia). tauto. }
  assert (Mh : holds t m) by (rewrite <- J2; apply Hv; apply nth_In; rewrite Hn; auto).
  exists m. split; [exists jx; auto|]. split; [exact J3|]. split.
  - intros Hh i. rewrite Hm, wrap_holds by exact Hh. reflexivity.
  - intros Hh i. rewrite Hm. apply holds_low in Mh, Fa. rewrite holds_low in Hh. assert (wrap t (m + a) <= m); [|split; [tauto|intros A; split; [exact A|lia]]].
    pose proof (two_bits t). assert (L : low t <= 0) by (destruct t as [w|w]; cbn [low]; [lia|]; pose proof (Z.pow_nonneg 2 (Z.pos w - 1)); lia).
    rewrite wrap_above by lia. lia.
Qed.
Print Assumptions C120_purge.

Theorem C120_embargo : forall t train test n v a r, length v = n -> (forall x, In x v -> holds t x) -> test <> [] -> (forall j, In j test -> (j < n)%nat) -> (forall i, In i train -> (i < n)%nat) ->
  w_embargo t train test (seq 0 n) v (DInt a) = Ok r -> exists m, (exists j, In j test /\ nth j v 0 = m) /\ (forall j, In j test -> m <= nth j v 0) /\
  (holds t (m - a) -> forall i, In i r <-> In i train /\ ~ (m - a <= nth i v 0 < m)) /\
  (~ holds t (m - a) -> forall i, In i r <-> In i train).
Proof.
  intros t train test n v a r Hn Hv Ht Hlt Hi E. unfold w_embargo in E. apply bind_ok in E as (a' & Ea & E).
  assert (Q : a' = a /\ 0 <= a) by (unfold w_validate in Ea; destruct (Z.ltb_spec a 0); [discriminate|]; destruct (w_sortedb t v); [injection Ea as <-; auto|discriminate]). destruct Q as [-> Ha].
  apply bind_ok in E as (mx & Em & E). assert (Q := sel_min_spec _ _ _ Em). destruct mx as [m|]; [|destruct Q as [Q _]; contradiction]. destruct Q as [(jx & J1 & J2) J3]. unfold gat in J2, J3. cbn [g_val] in J2, J3.
  apply bind_ok in E as (lo & Eh & E). unfold w_sub in Eh. destruct (fitsb t a) eqn:Fa; [|discriminate]. injection Eh as <-. apply fitsb_spec in Fa. cbn [option_map] in E.
  apply bind_ok in E as (pg & Ep & E). apply mask_select_seq in Ep as [_ ->]. cbv zeta in E. destruct (setdiff1d train _) eqn:Es; [discriminate|]. rewrite <- Es in E. match type of E with Ok ?b = Ok r => assert (Hr : r = b) by congruence end. clear E.
  assert (Hm : forall i, In i r <-> In i train /\ ~ (wrap t (m - a) <= nth i v 0 < m)).
  { intros i. subst r. rewrite In_setdiff1d, filter_In, in_seq. unfold cmp_o, gat. cbn [g_val]. rewrite andb_true_iff, Z.geb_le, Z.ltb_lt. specialize (Hi i). split.
    - intros [A B]. split; [exact A|]. intros C. apply B. split; [|lia]. specialize (Hi A). lia.
    - intros [A B]. assert (~ ((0 <= i < 0 + n)%nat /\ wrap t (m - a) <= nth i v 0 /\ nth i v 0 < m)) by (intros (_ & C1 & C2); apply B; lia). tauto. }
  assert (Mh : holds t m) by (rewrite <- J2; apply Hv; apply nth_In; rewrite Hn; auto).
  exists m. split; [exists jx; auto|]. split; [exact J3|]. split.
  - intros Hh i. rewrite Hm, wrap_holds by exact Hh. reflexivity.
  - intros Hh i. rewrite Hm. apply holds_low in Mh, Fa. rewrite holds_low in Hh. assert (m <= wrap t (m - a)); [|split; [tauto|intros A; split; [exact A|lia]]].
    pose proof (two_bits t). assert (L : low t <= 0) by (destruct t as [w|w]; cbn [low]; [lia|]; pose proof (Z.pow_nonneg 2 (Z.pos w - 1)); lia).
    rewrite wrap_below by lia. lia.
Qed.
Print Assumptions C120_embargo.

(** days 0, ..., 5 as unsigned integers and an embargo of 3 days: nothing before the second fold is embargoed *)
Theorem C120_embargo_refuted : ~ (forall t c v tr te i, (forall x, In x v -> holds t x) -> ascending v -> In (tr, te) (yields (w_kfold_split t c (length v) v)) -> In i tr ->
  ~ in_embargo_zone (mkG ArrInt v) te (magnitude (kf_embargo c)) i).
Proof.
  intros H. apply (H (Unsigned 64) (mkKF 3 (DInt 3) (DInt 0) false None) [0; 1; 2; 3; 4; 5] [0; 1; 4; 5]%nat [2; 3]%nat 1%nat).
  - intros x Hx. cbn in Hx. cbn [holds]. change (2 ^ 64) with 18446744073709551616. intuition lia.
  - apply ascending_nondecr, sortedb_spec. reflexivity.
  - vm_compute. auto.
  - cbn. auto.
  - unfold in_embargo_zone, gv. cbn [g_val kf_embargo magnitude]. split; [intros j [<-|[<-|[]]]; cbn; lia|exists 2%nat; cbn; split; [auto|lia]].
Qed.
Print Assumptions C120_embargo_refuted.
Example C120_example : yields (w_kfold_split (Unsigned 64) (mkKF 3 (DInt 3) (DInt 0) false None) 6 [0; 1; 2; 3; 4; 5]) = [([2; 3; 4; 5], [0; 1]); ([0; 1; 4; 5], [2; 3]); ([0], [4; 5])]%nat /\
  w_kfold_split (Signed 64) (mkKF 3 (DInt 3) (DInt 0) false None) 6 [0; 1; 2; 3; 4; 5] = mkGen [([2; 3; 4; 5], [0; 1]); ([4; 5], [2; 3]); ([0], [4; 5])]%nat Done.
Proof. split; vm_compute; reflexivity. Qed.
