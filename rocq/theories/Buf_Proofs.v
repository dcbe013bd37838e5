(** Series operations on the last rows of a series. *)
From Coq Require Import Reals Lra Psatz ZArith List Arith Bool Lia.
From Verif Require Import Base Num Sums Feat_Ops Feat_Spec Feat_Proofs Feat_Model Feat_Causal_Props.
Import ListNotations.
Open Scope R_scope.

(** x' is x without its first d rows, except that its first s rows may differ *)
Definition tail_of (d s : nat) (x x' : list num) : Prop :=
  length x' = (length x - d)%nat /\ forall j, (s <= j)%nat -> nth j x' NaN = nth (d + j) x NaN.

Lemma nth_skipn' : forall d (x : list num) j, nth j (skipn d x) NaN = nth (d + j) x NaN.
Proof. induction d as [|d IH]; intros [|a x] j; cbn [skipn Nat.add nth]; auto. destruct j; reflexivity. Qed.
Lemma tail_skipn : forall d x, tail_of d 0 x (skipn d x).
Proof. intros d x. split; [apply skipn_length|]. intros j _. apply nth_skipn'. Qed.
Lemma tail_mono : forall d s s' x x', (s <= s')%nat -> tail_of d s x x' -> tail_of d s' x x'.
Proof. intros d s s' x x' H [L E]. split; [exact L|]. intros j Hj. apply E. lia. Qed.
Lemma tail_map : forall d s f x x', tail_of d s x x' -> tail_of d s (map f x) (map f x').
Proof.
  intros d s f x x' [L E]. split; [rewrite !map_length; exact L|]. intros j Hj. destruct (Nat.lt_ge_cases j (length x')) as [H|H].
  - rewrite (nth_indep (map f x') NaN (f NaN)), (nth_indep (map f x) NaN (f NaN)) by (rewrite map_length; lia). rewrite !map_nth, E by exact Hj. reflexivity.
  - rewrite !nth_overflow by (rewrite map_length; lia). reflexivity.
Qed.
Lemma nth_lift2_in : forall f xs ys i, (i < Nat.max (length xs) (length ys))%nat -> nth i (lift2 f xs ys) NaN = f (nth i xs NaN) (nth i ys NaN).
Proof. intros f xs ys i H. unfold lift2. rewrite nth_seq_map' by exact H. reflexivity. Qed.
Lemma tail_lift2 : forall d s s2 f x x' y y', tail_of d s x x' -> tail_of d s2 y y' -> tail_of d (Nat.max s s2) (lift2 f x y) (lift2 f x' y').
Proof.
  intros d s s2 f x x' y y' [L E] [L2 E2]. split; [rewrite !len_lift2; lia|]. intros j Hj. destruct (Nat.lt_ge_cases j (Nat.max (length x') (length y'))) as [H|H].
  - rewrite !nth_lift2_in by lia. rewrite E, E2 by lia. reflexivity.
  - rewrite !nth_overflow by (rewrite len_lift2; lia). reflexivity.
Qed.
Lemma tail_shift : forall d s p x x', (0 <= p)%Z -> tail_of d s x x' -> tail_of d (s + Z.to_nat p) (shift p x) (shift p x').
Proof.
  intros d s p x x' Hp [L E]. split; [rewrite !len_shift; exact L|]. intros j Hj. destruct (Nat.lt_ge_cases j (length x')) as [H|H].
  - unfold shift. rewrite !nth_seq_map' by lia. destruct (Z.ltb_spec (Z.of_nat j) p); [lia|]. destruct (Z.ltb_spec (Z.of_nat (d + j)) p); [lia|]. rewrite E by lia. f_equal. lia.
  - rewrite !nth_overflow by (rewrite len_shift; lia). reflexivity.
Qed.
Lemma tail_diff : forall d s p x x', (0 <= p)%Z -> tail_of d s x x' -> tail_of d (s + Z.to_nat p) (diff p x) (diff p x').
Proof. intros d s p x x' Hp H. unfold diff. eapply tail_mono; [|apply tail_lift2; [exact H|apply tail_shift; [exact Hp|exact H]]]. lia. Qed.
Lemma tail_window : forall d s w x x' j, tail_of d s x x' -> (s + w <= S j)%nat -> (j < length x')%nat -> skipn (S j - w) (firstn (S j) x') = skipn (S (d + j) - w) (firstn (S (d + j)) x).
Proof.
  intros d s w x x' j [L E] Hj Hl. apply list_ext; [rewrite !skipn_length, !firstn_length; lia|]. rewrite skipn_length, firstn_length. intros i Hi. rewrite !nth_skipn', !nth_first by lia. rewrite E by lia. f_equal. lia.
Qed.
Lemma tail_roll : forall d s w agg x x', tail_of d s x x' -> tail_of d (s + w - 1) (roll w agg x) (roll w agg x').
Proof.
  intros d s w agg x x' H. pose proof H as [L E]. split; [rewrite !len_roll; exact L|]. intros j Hj. destruct (Nat.lt_ge_cases j (length x')) as [Hl|Hl].
  - rewrite !nth_roll by lia. unfold roll_at. destruct (Nat.ltb_spec (S j) w); [lia|]. destruct (Nat.ltb_spec (S (d + j)) w); [lia|]. rewrite (tail_window d s w x x' j H) by lia. reflexivity.
  - rewrite !nth_overflow by (rewrite len_roll; lia). reflexivity.
Qed.
Lemma tail_pad : forall d s n n' x x', n' = (n - d)%nat -> tail_of d s x x' -> tail_of d s (map (fun i => nth i x NaN) (seq 0 n)) (map (fun i => nth i x' NaN) (seq 0 n')).
Proof.
  intros d s n n' x x' -> [L E]. split; [rewrite !map_length, !seq_length; reflexivity|]. intros j Hj. destruct (Nat.lt_ge_cases j (n - d)) as [H|H].
  - rewrite !nth_seq_map' by lia. apply E. exact Hj.
  - rewrite !nth_overflow by (rewrite map_length, seq_length; lia). reflexivity.
Qed.
Definition padded (n : nat) (l : list num) : list num := map (fun i => nth i l NaN) (seq 0 n).
Definition win (w i : nat) (l : list num) : list num := skipn (S i - w) (firstn (S i) l).
Lemma cov_rows : forall w x y out, (0 <= w)%Z -> rolling_cov w x y = Ok out -> let n := Nat.max (length x) (length y) in length out = n /\
  forall j, (j < n)%nat -> nth j out NaN = (if Nat.ltb (S j) (Z.to_nat w) then NaN else match finite (win (Z.to_nat w) j (padded n x)), finite (win (Z.to_nat w) j (padded n y)) with Some a, Some b => agg_cov a b | _, _ => NaN end).
Proof.
  intros w x y out Hw E n. unfold rolling_cov in E. destruct (Z.ltb_spec w 0); [lia|]. cbv zeta in E. injection E as <-. split; [rewrite map_length, seq_length; reflexivity|]. intros j Hj. etransitivity; [apply nth_seq_map'; exact Hj|]. reflexivity.
Qed.
Lemma edge_rows : forall h l o c w sg out, edge_spread h l o c w sg = Ok out -> let n := Nat.max (Nat.max (length o) (length h)) (Nat.max (length l) (length c)) in (1 <= w)%Z /\ length out = n /\
  forall j, (j < n)%nat -> nth j out NaN = (if Nat.ltb (S j) (Z.to_nat w) then NaN else edge_window (win (Z.to_nat w) j (padded n o)) (win (Z.to_nat w) j (padded n h)) (win (Z.to_nat w) j (padded n l)) (win (Z.to_nat w) j (padded n c)) sg).
Proof.
  intros h l o c w sg out E n. unfold edge_spread in E. destruct (Z.ltb_spec w 1); [discriminate|]. cbv zeta in E. injection E as <-. split; [lia|]. split; [rewrite map_length, seq_length; reflexivity|]. intros j Hj. etransitivity; [apply nth_seq_map'; exact Hj|]. reflexivity.
Qed.
Lemma tail_win : forall d s w n n' x x' j, n' = (n - d)%nat -> tail_of d s x x' -> (s + w <= S j)%nat -> (j < n')%nat -> win w j (padded n' x') = win w (d + j) (padded n x).
Proof. intros d s w n n' x x' j En H Hj Hn. unfold win. apply (tail_window d s w); [apply tail_pad; assumption|exact Hj|]. unfold padded. rewrite map_length, seq_length. exact Hn. Qed.
Lemma tail_rolling_cov : forall d s w x x' y y' out out', (0 <= w)%Z -> tail_of d s x x' -> tail_of d s y y' -> rolling_cov w x y = Ok out -> rolling_cov w x' y' = Ok out' -> tail_of d (s + Z.to_nat w - 1) out out'.
Proof.
  intros d s w x x' y y' out out' Hw Hx Hy E E'. destruct (cov_rows w x y out Hw E) as [L R]. destruct (cov_rows w x' y' out' Hw E') as [L' R']. pose proof (proj1 Hx). pose proof (proj1 Hy).
  split; [lia|]. intros j Hj. destruct (Nat.lt_ge_cases j (length out')) as [Hl|Hl]; [|rewrite !nth_overflow by lia; reflexivity].
  rewrite R, R' by lia. destruct (Nat.ltb_spec (S j) (Z.to_nat w)); [lia|]. destruct (Nat.ltb_spec (S (d + j)) (Z.to_nat w)); [lia|].
  rewrite (tail_win d s (Z.to_nat w) (Nat.max (length x) (length y)) _ x x' j) by (assumption || lia). rewrite (tail_win d s (Z.to_nat w) (Nat.max (length x) (length y)) _ y y' j) by (assumption || lia). reflexivity.
Qed.
Lemma tail_edge : forall d w sg h h' l l' o o' c c' out out', tail_of d 0 h h' -> tail_of d 0 l l' -> tail_of d 0 o o' -> tail_of d 0 c c' ->
  edge_spread h l o c w sg = Ok out -> edge_spread h' l' o' c' w sg = Ok out' -> tail_of d (Z.to_nat w - 1) out out'.
Proof.
  intros d w sg h h' l l' o o' c c' out out' Hh Hl Ho Hc E E'. destruct (edge_rows _ _ _ _ _ _ _ E) as (W & L & R). destruct (edge_rows _ _ _ _ _ _ _ E') as (_ & L' & R').
  pose proof (proj1 Hh). pose proof (proj1 Hl). pose proof (proj1 Ho). pose proof (proj1 Hc).
  split; [lia|]. intros j Hj. destruct (Nat.lt_ge_cases j (length out')) as [Hlt|Hge]; [|rewrite !nth_overflow by lia; reflexivity].
  rewrite R, R' by lia. destruct (Nat.ltb_spec (S j) (Z.to_nat w)); [lia|]. destruct (Nat.ltb_spec (S (d + j)) (Z.to_nat w)); [lia|].
  set (n := Nat.max (Nat.max (length o) (length h)) (Nat.max (length l) (length c))) in *.
  rewrite (tail_win d 0 (Z.to_nat w) n _ h h' j), (tail_win d 0 (Z.to_nat w) n _ l l' j), (tail_win d 0 (Z.to_nat w) n _ o o' j), (tail_win d 0 (Z.to_nat w) n _ c c' j) by (assumption || lia). reflexivity.
Qed.
