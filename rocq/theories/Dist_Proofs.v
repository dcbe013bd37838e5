(** Lemmas for the correlation distances. *)
From Coq Require Import Reals Lra Psatz String List Arith Bool Lia.
From Verif Require Import Base Num Sim_Model Dist_Model Dist_Spec.
Import ListNotations.
Open Scope R_scope.

Lemma Rabs_le_between : forall a b, Rabs a <= b <-> - b <= a <= b.
Proof. intros a b. split; [|apply Rabs_le]. intros H. unfold Rabs in H. destruct (Rcase_abs a); lra. Qed.

(* ------------------------------------------------------------------ *)
(** ** inner products on index ranges *)

Definition dot (n : nat) (f g : nat -> R) : R := rsum (map (fun i => f i * g i) (seq 0 n)).
Lemma dot_ext : forall n f g f' g', (forall i, (i < n)%nat -> f i = f' i) -> (forall i, (i < n)%nat -> g i = g' i) -> dot n f g = dot n f' g'.
Proof. intros. unfold dot. apply rsum_ext. intros i Hi. apply in_seq in Hi. rewrite H, H0 by lia. reflexivity. Qed.
Lemma dot_sym : forall n f g, dot n f g = dot n g f.
Proof. intros. unfold dot. apply rsum_ext. intros. ring. Qed.
Lemma dot_lin : forall n f g h c, dot n (fun i => f i + c * g i) h = dot n f h + c * dot n g h.
Proof.
  intros. unfold dot. rewrite <- rsum_scal, <- rsum_plus. apply rsum_ext. intros. ring.
Qed.
Lemma dot_nonneg : forall n f, 0 <= dot n f f.
Proof. intros. unfold dot. apply rsum_nonneg. intros x H. apply in_map_iff in H as (i & <- & _). nra. Qed.
Lemma dot_zero : forall n f, dot n f f = 0 -> forall i, (i < n)%nat -> f i = 0.
Proof.
  intros n f H i Hi. unfold dot in H.
  assert (K : forall l, (forall x, In x l -> 0 <= x) -> rsum l = 0 -> forall x, In x l -> x = 0).
  { clear. induction l as [|a l IH]; intros Hn Hs x Hx; [destruct Hx|]. cbn [rsum fold_right] in Hs. fold (rsum l) in Hs.
    assert (0 <= a) by (apply Hn; left; auto). assert (0 <= rsum l) by (apply rsum_nonneg; intros; apply Hn; right; auto).
    destruct Hx as [<-|Hx]; [lra|]. apply IH; auto; [intros; apply Hn; right; auto|lra]. }
  assert (E : f i * f i = 0).
  { eapply K; [|exact H|]. - intros x Hx. apply in_map_iff in Hx as (j & <- & _). nra.
    - apply in_map_iff. exists i. split; [reflexivity|]. apply in_seq. lia. }
  nra.
Qed.
Lemma dot_lin2 : forall n f g h k a b, dot n (fun i => f i + a * g i) (fun i => h i + b * k i) = dot n f h + b * dot n f k + a * dot n g h + a * b * dot n g k.
Proof. intros. rewrite dot_lin, (dot_sym n f), (dot_sym n g), !dot_lin, (dot_sym n h f), (dot_sym n k f), (dot_sym n h g), (dot_sym n k g). ring. Qed.

Lemma cauchy_schwarz : forall n f g, dot n f g * dot n f g <= dot n f f * dot n g g.
Proof.
  intros n f g. pose proof (dot_nonneg n f) as Hf. pose proof (dot_nonneg n g) as Hg.
  destruct (Req_dec (dot n g g) 0) as [E|E].
  - assert (Z : dot n f g = 0).
    { unfold dot. rewrite (rsum_ext _ _ (fun _ => 0)). - rewrite rsum_const. ring.
      - intros i Hi. apply in_seq in Hi. rewrite (dot_zero n g E i) by lia. ring. }
    rewrite Z, E. lra.
  - pose proof (dot_nonneg n (fun i => f i + (- dot n f g / dot n g g) * g i)) as H. rewrite dot_lin2 in H.
    rewrite (dot_sym n g f) in H. set (a := dot n f f) in *. set (b := dot n f g) in *. set (c := dot n g g) in *.
    assert (Hc : 0 < c) by lra.
    replace (a + - b / c * b + - b / c * b + - b / c * (- b / c) * c) with ((a * c - b * b) / c) in H by (field; lra).
    assert (0 <= a * c - b * b). { apply Rmult_le_reg_r with (/ c); [apply Rinv_0_lt_compat; lra|]. rewrite Rmult_0_l. exact H. }
    lra.
Qed.

(** correlation of two vectors, and the Gram inequality for three *)
Definition crl (n : nat) (f g : nat -> R) : R := dot n f g / (sqrt (dot n f f) * sqrt (dot n g g)).
Lemma crl_bounds : forall n f g, 0 < dot n f f -> 0 < dot n g g -> -1 <= crl n f g <= 1.
Proof.
  intros n f g Hf Hg. pose proof (cauchy_schwarz n f g) as CS. unfold crl.
  set (s := sqrt (dot n f f)). set (t := sqrt (dot n g g)).
  assert (Hs : 0 < s) by (apply sqrt_lt_R0; auto). assert (Ht : 0 < t) by (apply sqrt_lt_R0; auto).
  assert (Es : s * s = dot n f f) by (apply sqrt_sqrt; lra). assert (Et : t * t = dot n g g) by (apply sqrt_sqrt; lra).
  rewrite <- Es, <- Et in CS. set (d := dot n f g) in *. assert (Hst : 0 < s * t) by nra.
  assert (Habs : Rabs d <= s * t).
  { apply Rsqr_incr_0_var; [|lra]. rewrite <- Rsqr_abs. unfold Rsqr. nra. }
  apply Rabs_le_between in Habs.
  split; [apply Rmult_le_reg_r with (s * t)|apply Rmult_le_reg_r with (s * t)]; auto; unfold Rdiv; rewrite Rmult_assoc, Rinv_l by lra; lra.
Qed.
Lemma crl_sym : forall n f g, crl n f g = crl n g f.
Proof. intros. unfold crl. rewrite dot_sym, (Rmult_comm (sqrt (dot n g g))). reflexivity. Qed.

Lemma gram3 : forall n f g h, 0 < dot n f f -> 0 < dot n g g -> 0 < dot n h h ->
  let a := crl n f g in let b := crl n g h in let c := crl n f h in
  Rabs (c - a * b) <= sqrt (1 - a ^ 2) * sqrt (1 - b ^ 2).
Proof.
  intros n f g h Hf Hg Hh a b c.
  set (s := sqrt (dot n f f)). set (t := sqrt (dot n g g)). set (u := sqrt (dot n h h)).
  assert (Hs : 0 < s) by (apply sqrt_lt_R0; auto). assert (Ht : 0 < t) by (apply sqrt_lt_R0; auto). assert (Hu : 0 < u) by (apply sqrt_lt_R0; auto).
  assert (Es : s * s = dot n f f) by (apply sqrt_sqrt; lra). assert (Et : t * t = dot n g g) by (apply sqrt_sqrt; lra).
  assert (Eu : u * u = dot n h h) by (apply sqrt_sqrt; lra).
  assert (Ea : dot n f g = a * (s * t)) by (unfold a, crl; fold s t; field; lra).
  assert (Eb : dot n g h = b * (t * u)) by (unfold b, crl; fold t u; field; lra).
  assert (Ec : dot n f h = c * (s * u)) by (unfold c, crl; fold s u; field; lra).
  pose proof (crl_bounds n f g Hf Hg) as Ba. pose proof (crl_bounds n g h Hg Hh) as Bb. fold a in Ba. fold b in Bb.
  pose proof (cauchy_schwarz n (fun i => f i + (- (a * s / t)) * g i) (fun i => h i + (- (b * u / t)) * g i)) as CS.
  rewrite !dot_lin2 in CS. rewrite (dot_sym n g f), (dot_sym n h g) in CS. rewrite <- Es, <- Et, <- Eu, Ea, Eb, Ec in CS.
  replace (c * (s * u) + - (b * u / t) * (a * (s * t)) + - (a * s / t) * (b * (t * u)) + - (a * s / t) * - (b * u / t) * (t * t))
    with ((c - a * b) * (s * u)) in CS by (field; lra).
  replace (s * s + - (a * s / t) * (a * (s * t)) + - (a * s / t) * (a * (s * t)) + - (a * s / t) * - (a * s / t) * (t * t))
    with ((1 - a ^ 2) * (s * s)) in CS by (field; lra).
  replace (u * u + - (b * u / t) * (b * (t * u)) + - (b * u / t) * (b * (t * u)) + - (b * u / t) * - (b * u / t) * (t * t))
    with ((1 - b ^ 2) * (u * u)) in CS by (field; lra).
  assert (CS2 : (c - a * b) * (c - a * b) <= (1 - a ^ 2) * (1 - b ^ 2)).
  { assert (Hsu : 0 < (s * u) * (s * u)) by (assert (0 < s * u) by nra; nra).
    apply Rmult_le_reg_r with ((s * u) * (s * u)); [exact Hsu|]. nra. }
  assert (0 <= 1 - a ^ 2) by nra. assert (0 <= 1 - b ^ 2) by nra.
  rewrite <- sqrt_mult by auto. rewrite <- (sqrt_Rsqr (Rabs (c - a * b))) by apply Rabs_pos. rewrite <- Rsqr_abs.
  apply sqrt_le_1_alt. unfold Rsqr. exact CS2.
Qed.

(* ------------------------------------------------------------------ *)
(** ** triangle inequalities from the Gram inequality *)

Lemma sqrt_tri : forall p q r, 0 <= p -> 0 <= q -> 0 <= r -> r <= p + q + 2 * (sqrt p * sqrt q) -> sqrt r <= sqrt p + sqrt q.
Proof.
  intros p q r Hp Hq Hr H. pose proof (sqrt_pos p) as A. pose proof (sqrt_pos q) as B.
  rewrite <- (sqrt_Rsqr (sqrt p + sqrt q)) by lra. apply sqrt_le_1_alt. unfold Rsqr.
  replace ((sqrt p + sqrt q) * (sqrt p + sqrt q)) with (sqrt p * sqrt p + sqrt q * sqrt q + 2 * (sqrt p * sqrt q)) by ring.
  rewrite !sqrt_sqrt by auto. exact H.
Qed.
Lemma tri_core : forall a b, -1 <= a <= 1 -> -1 <= b <= 1 ->
  1 - a * b + sqrt (1 - a ^ 2) * sqrt (1 - b ^ 2) <= (1 - a) + (1 - b) + 2 * (sqrt (1 - a) * sqrt (1 - b)).
Proof.
  intros a b Ha Hb.
  replace (1 - a ^ 2) with ((1 - a) * (1 + a)) by ring. replace (1 - b ^ 2) with ((1 - b) * (1 + b)) by ring.
  rewrite !sqrt_mult by lra. set (p := sqrt (1 - a)). set (q := sqrt (1 - b)). set (u := sqrt (1 + a)). set (v := sqrt (1 + b)).
  assert (Hp : 0 <= p) by apply sqrt_pos. assert (Hq : 0 <= q) by apply sqrt_pos.
  assert (Hu : 0 <= u) by apply sqrt_pos. assert (Hv : 0 <= v) by apply sqrt_pos.
  assert (Ep : p * p = 1 - a) by (apply sqrt_sqrt; lra). assert (Eq : q * q = 1 - b) by (apply sqrt_sqrt; lra).
  assert (Eu : u * u = 1 + a) by (apply sqrt_sqrt; lra). assert (Ev : v * v = 1 + b) by (apply sqrt_sqrt; lra).
  assert (Huv : u * v <= 2) by nra.
  assert (Hpq : 0 <= p * q) by nra.
  assert (E1 : 1 - a * b = (1 - a) + (1 - b) - (p * q) * (p * q)).
  { replace ((p * q) * (p * q)) with ((p * p) * (q * q)) by ring. rewrite Ep, Eq. ring. }
  rewrite E1. replace (p * u * (q * v)) with ((p * q) * (u * v)) by ring. nra.
Qed.
Lemma angular_triangle : forall a b c, -1 <= a <= 1 -> -1 <= b <= 1 -> -1 <= c <= 1 ->
  Rabs (c - a * b) <= sqrt (1 - a ^ 2) * sqrt (1 - b ^ 2) -> angular c <= angular a + angular b.
Proof.
  intros a b c Ha Hb Hc H. unfold angular. apply sqrt_tri; try lra.
  assert (E : sqrt ((1 - a) / 2) * sqrt ((1 - b) / 2) = sqrt (1 - a) * sqrt (1 - b) / 2).
  { rewrite <- sqrt_mult by lra. replace ((1 - a) / 2 * ((1 - b) / 2)) with (((1 - a) * (1 - b)) / (2 * 2)) by field.
    rewrite sqrt_div by nra. rewrite (sqrt_square 2) by lra. rewrite sqrt_mult by lra. reflexivity. }
  rewrite E. pose proof (tri_core a b Ha Hb). apply Rabs_le_between in H. lra.
Qed.
Lemma abs_gram : forall a b c, Rabs (c - a * b) <= sqrt (1 - a ^ 2) * sqrt (1 - b ^ 2) ->
  Rabs a * Rabs b - sqrt (1 - (Rabs a) ^ 2) * sqrt (1 - (Rabs b) ^ 2) <= Rabs c.
Proof.
  intros a b c H. assert (Ea : (Rabs a) ^ 2 = a ^ 2) by (rewrite <- !Rsqr_pow2; symmetry; apply Rsqr_abs).
  assert (Eb : (Rabs b) ^ 2 = b ^ 2) by (rewrite <- !Rsqr_pow2; symmetry; apply Rsqr_abs). rewrite Ea, Eb, <- Rabs_mult.
  pose proof (Rabs_triang_inv (a * b) (a * b - c)) as T. rewrite Rabs_minus_sym in H.
  replace (a * b - (a * b - c)) with c in T by ring. lra.
Qed.
Lemma rabs_unit : forall a, -1 <= a <= 1 -> 0 <= Rabs a <= 1.
Proof. intros a H. split; [apply Rabs_pos|]. apply Rabs_le. lra. Qed.
Lemma abs_angular_triangle : forall a b c, -1 <= a <= 1 -> -1 <= b <= 1 -> -1 <= c <= 1 ->
  Rabs (c - a * b) <= sqrt (1 - a ^ 2) * sqrt (1 - b ^ 2) -> abs_angular c <= abs_angular a + abs_angular b.
Proof.
  intros a b c Ha Hb Hc H. apply abs_gram in H. apply rabs_unit in Ha, Hb, Hc. unfold abs_angular. apply sqrt_tri; try lra.
  pose proof (tri_core (Rabs a) (Rabs b) ltac:(lra) ltac:(lra)). lra.
Qed.
Lemma squared_angular_triangle : forall a b c, -1 <= a <= 1 -> -1 <= b <= 1 -> -1 <= c <= 1 ->
  Rabs (c - a * b) <= sqrt (1 - a ^ 2) * sqrt (1 - b ^ 2) -> squared_angular c <= squared_angular a + squared_angular b.
Proof.
  intros a b c Ha Hb Hc H. apply abs_gram in H. apply rabs_unit in Ha, Hb, Hc. unfold squared_angular.
  assert (Sq : forall r, r ^ 2 = (Rabs r) ^ 2) by (intros r; rewrite <- !Rsqr_pow2; apply Rsqr_abs).
  rewrite (Sq a), (Sq b), (Sq c). set (A := Rabs a) in *. set (B := Rabs b) in *. set (C := Rabs c) in *.
  apply sqrt_tri; try nra. set (s := sqrt (1 - A ^ 2)) in *. set (t := sqrt (1 - B ^ 2)) in *.
  assert (Hs : 0 <= s) by apply sqrt_pos. assert (Ht : 0 <= t) by apply sqrt_pos.
  assert (Es : s * s = 1 - A ^ 2) by (apply sqrt_sqrt; nra). assert (Et : t * t = 1 - B ^ 2) by (apply sqrt_sqrt; nra).
  assert (Hst : 0 <= s * t) by nra.
  destruct (Rle_dec (A * B) (s * t)) as [Hle|Hgt].
  - (* A^2 + B^2 <= 1 *)
    assert ((A * B) * (A * B) <= (s * t) * (s * t)) by (apply Rmult_le_compat; nra).
    assert (E2 : (s * t) * (s * t) = (1 - A ^ 2) * (1 - B ^ 2)) by (rewrite <- Es, <- Et; ring). nra.
  - assert (HC : (A * B - s * t) * (A * B - s * t) <= C * C) by (apply Rmult_le_compat; nra).
    assert (E2 : (s * t) * (s * t) = (1 - A ^ 2) * (1 - B ^ 2)) by (rewrite <- Es, <- Et; ring).
    assert (HAB : A * B <= 1) by nra. nra.
Qed.

(* ------------------------------------------------------------------ *)
(** ** the model on real data *)

Lemma combine_nth_map : forall (x y : list R), length x = length y ->
  combine x y = map (fun i => (nth i x 0, nth i y 0)) (seq 0 (length x)).
Proof.
  induction x as [|a x IH]; intros [|b y] H; try discriminate; [reflexivity|]. cbn [length] in H. injection H as H.
  cbn [combine length seq map nth]. f_equal. rewrite IH by auto. rewrite <- seq_shift, map_map. reflexivity.
Qed.
Lemma combine_map2 : forall A B C D (f : A -> C) (g : B -> D) l l', combine (map f l) (map g l') = map (fun p => (f (fst p), g (snd p))) (combine l l').
Proof. induction l as [|a l IH]; intros [|b l']; auto. cbn. f_equal. apply IH. Qed.

Lemma inner_dot : forall x y, inner x y = dot (length x) (centred x) (centred y).
Proof. reflexivity. Qed.
Lemma inner_sym : forall x y, length x = length y -> inner x y = inner y x.
Proof. intros x y H. rewrite !inner_dot, H. apply dot_sym. Qed.

Lemma dev_real : forall x y, length x = length y -> (1 <= length x)%nat ->
  nsum (map (fun p => nmul (nsub (fst p) (nmean (map Fin x))) (nsub (snd p) (nmean (map Fin y)))) (combine (map Fin x) (map Fin y))) = Fin (inner x y).
Proof.
  intros x y Hl Hn. rewrite !nmean_fin by (destruct x, y; cbn in *; try lia; discriminate).
  rewrite combine_map2, map_map. cbn [fst snd].
  rewrite (map_ext _ (fun p : R * R => Fin ((fst p - rmean x) * (snd p - rmean y)))) by (intros p; rewrite !nsub_fin; reflexivity).
  rewrite <- (map_map (fun p : R * R => (fst p - rmean x) * (snd p - rmean y)) Fin), nsum_fin. f_equal.
  rewrite combine_nth_map by auto. rewrite map_map. reflexivity.
Qed.
Lemma ncov_real : forall x y, length x = length y -> (2 <= length x)%nat ->
  ncov (map Fin x) (map Fin y) = Fin (inner x y / INR (length x - 1)).
Proof.
  intros x y Hl Hn. unfold ncov. rewrite dev_real by (auto; lia). rewrite map_length. unfold nofnat.
  assert (0 < INR (length x - 1)) by (apply lt_0_INR; lia). rewrite ndiv_fin by lra. cbn [nmul]. f_equal. field. lra.
Qed.

Lemma varies_pos : forall x, varies x -> 0 < inner x x /\ (2 <= length x)%nat.
Proof.
  intros x (a & b & Ha & Hb & Hab).
  assert (Hl : (2 <= length x)%nat).
  { destruct x as [|c [|d x]]; cbn in *; [tauto| |lia]. destruct Ha as [<-|[]], Hb as [<-|[]]. congruence. }
  split; [|exact Hl]. rewrite inner_dot. pose proof (dot_nonneg (length x) (centred x)) as [H|H]; [exact H|]. exfalso.
  apply In_nth with (d := 0) in Ha as (i & Hi & Ei). apply In_nth with (d := 0) in Hb as (j & Hj & Ej).
  pose proof (dot_zero _ _ (eq_sym H) i Hi) as Zi. pose proof (dot_zero _ _ (eq_sym H) j Hj) as Zj. unfold centred in *. lra.
Qed.
Lemma not_varies_zero : forall x, ~ varies x -> inner x x = 0.
Proof.
  intros x H. destruct x as [|a x]; [reflexivity|].
  assert (Hall : forall b, In b (a :: x) -> b = a).
  { intros b Hb. destruct (Req_dec b a) as [E|E]; [exact E|]. exfalso. apply H. exists b, a. split; [auto|]. split; [left; auto|auto]. }
  assert (Hm : rmean (a :: x) = a).
  { unfold rmean. assert (E : rsum (a :: x) = INR (length (a :: x)) * a).
    { rewrite <- (rsum_const R a (a :: x)). rewrite <- (map_id (a :: x)) at 1. apply rsum_ext. auto. }
    rewrite E. field. apply not_0_INR. discriminate. }
  unfold inner. rewrite (rsum_ext _ _ (fun _ => 0)); [rewrite rsum_const; ring|].
  intros i Hi. apply in_seq in Hi. unfold centred. rewrite Hm, (Hall (nth i (a :: x) 0)) by (apply nth_In; lia). ring.
Qed.

Lemma pearson_crl : forall x y, length x = length y -> pearson x y = crl (length x) (centred x) (centred y).
Proof. intros x y H. unfold pearson, crl. rewrite !inner_dot, H. reflexivity. Qed.
Lemma pearson_bounds : forall x y, length x = length y -> varies x -> varies y -> -1 <= pearson x y <= 1.
Proof.
  intros x y Hl Hx Hy. rewrite pearson_crl by auto. apply varies_pos in Hx as [Hx _]. apply varies_pos in Hy as [Hy _].
  apply crl_bounds; [exact Hx|]. rewrite Hl. exact Hy.
Qed.
Lemma nclip_in : forall lo hi r, lo <= r <= hi -> nclip (Fin lo) (Fin hi) (Fin r) = Fin r.
Proof.
  intros lo hi r H. unfold nclip. cbn [is_nan nltb]. rewrite (proj2 (rltb_false r lo)) by lra. cbn [is_nan nltb].
  rewrite (proj2 (rltb_false hi r)) by lra. reflexivity.
Qed.
Lemma nclip_any : forall c, nclip (Fin (-1)) (Fin 1) (Fin c) = Fin (clamp c).
Proof.
  intros c. unfold nclip, clamp. cbn [is_nan nltb]. destruct (Rlt_dec c (-1)) as [H|H].
  - rewrite (proj2 (rltb_true c (-1))) by auto. cbn [is_nan nltb]. rewrite (proj2 (rltb_false 1 (-1))) by lra.
    rewrite Rmin_right, Rmax_left by lra. reflexivity.
  - rewrite (proj2 (rltb_false c (-1))) by lra. cbn [is_nan nltb]. destruct (Rlt_dec 1 c) as [H'|H'].
    + rewrite (proj2 (rltb_true 1 c)) by auto. rewrite Rmin_left, Rmax_right by lra. reflexivity.
    + rewrite (proj2 (rltb_false 1 c)) by lra. rewrite Rmin_right, Rmax_right by lra. reflexivity.
Qed.
Lemma clamp_bounds : forall c, -1 <= clamp c <= 1.
Proof. intros c. unfold clamp. split; [apply Rmax_l|]. apply Rmax_lub; [lra|apply Rmin_l]. Qed.
Lemma clamp_id : forall c, -1 <= c <= 1 -> clamp c = c.
Proof. intros c H. unfold clamp. rewrite Rmin_right, Rmax_right by lra. reflexivity. Qed.

Lemma corrcoef_real : forall x y, length x = length y -> varies x -> varies y ->
  corrcoef (map Fin x) (map Fin y) = Ok (Fin (pearson x y)).
Proof.
  intros x y Hl Hx Hy. pose proof (pearson_bounds x y Hl Hx Hy) as B. destruct (varies_pos x Hx) as [Px Lx]. destruct (varies_pos y Hy) as [Py Ly].
  unfold corrcoef. rewrite !map_length, (proj2 (Nat.eqb_eq _ _) Hl). cbn [negb].
  rewrite !ncov_real by (auto; lia). rewrite <- Hl.
  assert (Hn : 0 < INR (length x - 1)) by (apply lt_0_INR; lia). set (k := INR (length x - 1)) in *.
  assert (Hk : forall r, 0 < r -> 0 < r / k) by (intros r Hr; apply Rmult_lt_0_compat; [auto|apply Rinv_0_lt_compat; auto]).
  assert (Sx : 0 < sqrt (inner x x / k)) by (apply sqrt_lt_R0; auto). assert (Sy : 0 < sqrt (inner y y / k)) by (apply sqrt_lt_R0; auto).
  rewrite !nsqrt_fin by (apply Rlt_le; auto). rewrite (ndiv_fin (inner x y / k)) by lra. rewrite ndiv_fin by lra.
  replace (inner x y / k / sqrt (inner x x / k) / sqrt (inner y y / k)) with (pearson x y); [rewrite nclip_in by exact B; reflexivity|].
  unfold pearson. rewrite !sqrt_div by lra. assert (0 < sqrt k) by (apply sqrt_lt_R0; auto).
  assert (0 < sqrt (inner x x)) by (apply sqrt_lt_R0; auto). assert (0 < sqrt (inner y y)) by (apply sqrt_lt_R0; auto).
  assert (Ek : k = sqrt k * sqrt k) by (symmetry; apply sqrt_sqrt; lra). set (w := sqrt k) in *. clearbody w. rewrite Ek. field. repeat split; lra.
Qed.

(** conversion of an admissible correlation *)
Lemma formula_bounds : forall m r, -1 <= r <= 1 -> 0 <= formula m r <= 1.
Proof.
  intros m r H. assert (A := rabs_unit r H). unfold formula.
  assert (K : forall v, 0 <= v <= 1 -> 0 <= sqrt v <= 1) by (intros v Hv; split; [apply sqrt_pos|rewrite <- sqrt_1; apply sqrt_le_1_alt; lra]).
  destruct (String.eqb m "angular"); [apply K; lra|]. destruct (String.eqb m "abs_angular"); apply K; [lra|nra].
Qed.
Lemma conversion_real : forall m r, known_method m -> -1 <= r <= 1 -> conversion m (Fin r) = Ok (Fin (formula m r)).
Proof.
  intros m r Hm Hr. assert (A := rabs_unit r Hr). unfold conversion, formula, angular, abs_angular, squared_angular.
  destruct Hm as [->|[->| ->]]; cbn [String.eqb Ascii.eqb Bool.eqb]; rewrite ?nsub_fin; cbn [nabs nsqr nmul]; rewrite ?nsub_fin.
  - rewrite ndiv_fin by lra. rewrite nsqrt_fin by lra. reflexivity.
  - rewrite nsqrt_fin by lra. reflexivity.
  - rewrite nsqrt_fin by nra. do 3 f_equal. ring.
Qed.
Lemma conversion_nan : forall m, known_method m -> conversion m NaN = Ok NaN.
Proof. intros m [->|[->| ->]]; reflexivity. Qed.
Lemma known_in : forall m, existsb (String.eqb m) ["angular"; "abs_angular"; "squared_angular"]%string = true <-> known_method m.
Proof.
  intros m. cbn. rewrite !orb_true_iff, !String.eqb_eq. unfold known_method. intuition discriminate.
Qed.
