(** Numbers of the models: real numbers extended with NaN and the two infinities.
    Idealisation of IEEE doubles used by numpy and pandas: no rounding, no overflow, one zero; the NaN and infinity
    rules are those of IEEE 754. *)
From Coq Require Import Reals Lra List Lia.
Import ListNotations.
Open Scope R_scope.

Inductive num := Fin (r : R) | NaN | PInf | NInf.

(** ** comparisons (numpy: any comparison with NaN is False, except !=) *)
Definition rltb (a b : R) : bool := if Rlt_dec a b then true else false.
Definition rleb (a b : R) : bool := if Rle_dec a b then true else false.
Definition reqb (a b : R) : bool := if Req_EM_T a b then true else false.

Definition nltb (x y : num) : bool :=
  match x, y with
  | Fin a, Fin b => rltb a b
  | NInf, Fin _ | Fin _, PInf | NInf, PInf => true
  | _, _ => false
  end.
Definition neqb (x y : num) : bool :=
  match x, y with
  | Fin a, Fin b => reqb a b
  | NInf, NInf | PInf, PInf => true
  | _, _ => false
  end.
Definition nleb (x y : num) : bool := nltb x y || neqb x y.
Definition ngtb (x y : num) : bool := nltb y x.
Definition ngeb (x y : num) : bool := nleb y x.

Definition is_nan (x : num) : bool := match x with NaN => true | _ => false end.
Definition is_fin (x : num) : bool := match x with Fin _ => true | _ => false end.

(** ** arithmetic *)
Definition nneg (x : num) : num :=
  match x with Fin a => Fin (- a) | NaN => NaN | PInf => NInf | NInf => PInf end.

Definition nadd (x y : num) : num :=
  match x, y with
  | Fin a, Fin b => Fin (a + b)
  | NaN, _ | _, NaN => NaN
  | PInf, NInf | NInf, PInf => NaN
  | PInf, _ | _, PInf => PInf
  | NInf, _ | _, NInf => NInf
  end.
Definition nsub (x y : num) : num := nadd x (nneg y).

(** sign of a real times an infinity *)
Definition sgn_inf (a : R) (pos : bool) : num :=
  if rltb 0 a then (if pos then PInf else NInf)
  else if rltb a 0 then (if pos then NInf else PInf) else NaN.

Definition nmul (x y : num) : num :=
  match x, y with
  | Fin a, Fin b => Fin (a * b)
  | NaN, _ | _, NaN => NaN
  | Fin a, PInf | PInf, Fin a => sgn_inf a true
  | Fin a, NInf | NInf, Fin a => sgn_inf a false
  | PInf, PInf | NInf, NInf => PInf
  | PInf, NInf | NInf, PInf => NInf
  end.

(** division: x/0 is an infinity with the sign of x (the zero counts as positive), 0/0 is NaN. *)
Definition ndiv (x y : num) : num :=
  match x, y with
  | NaN, _ | _, NaN => NaN
  | Fin a, Fin b => if reqb b 0 then sgn_inf a true else Fin (a / b)
  | Fin _, (PInf | NInf) => Fin 0
  | PInf, Fin b => if rltb b 0 then NInf else PInf
  | NInf, Fin b => if rltb b 0 then PInf else NInf
  | _, _ => NaN
  end.

Definition nabs (x : num) : num :=
  match x with Fin a => Fin (Rabs a) | NaN => NaN | _ => PInf end.
Definition nsqrt (x : num) : num :=
  match x with
  | Fin a => if rltb a 0 then NaN else Fin (sqrt a)
  | PInf => PInf
  | _ => NaN
  end.
Definition nexp (x : num) : num :=
  match x with Fin a => Fin (exp a) | NaN => NaN | PInf => PInf | NInf => Fin 0 end.
Definition nlog (x : num) : num :=
  match x with
  | Fin a => if rltb 0 a then Fin (ln a) else if reqb a 0 then NInf else NaN
  | PInf => PInf
  | _ => NaN
  end.
Definition nsqr (x : num) : num := nmul x x.
Definition nofnat (n : nat) : num := Fin (INR n).

(** ** sums over lists *)
Definition nsum (l : list num) : num := fold_right nadd (Fin 0) l.
Definition nmean (l : list num) : num := ndiv (nsum l) (nofnat (length l)).
(** np.var(l, ddof): sum of squared deviations / max(n - ddof, 0). *)
Definition nvar (ddof : nat) (l : list num) : num :=
  let m := nmean l in
  ndiv (nsum (map (fun x => nsqr (nsub x m)) l)) (nofnat (length l - ddof)).
Definition nstd (ddof : nat) (l : list num) : num := nsqrt (nvar ddof l).

(** ** the same over the reals *)
Definition rsum (l : list R) : R := fold_right Rplus 0 l.
Definition rmean (l : list R) : R := rsum l / INR (length l).
Definition rvar (ddof : nat) (l : list R) : R :=
  rsum (map (fun x => (x - rmean l) * (x - rmean l)) l) / INR (length l - ddof).

(** ** basic lemmas *)
Lemma rltb_true : forall a b, rltb a b = true <-> a < b.
Proof. intros; unfold rltb; destruct (Rlt_dec a b); split; auto; discriminate. Qed.
Lemma rltb_false : forall a b, rltb a b = false <-> b <= a.
Proof. intros; unfold rltb; destruct (Rlt_dec a b); split; intros; auto; try discriminate; lra. Qed.
Lemma rleb_true : forall a b, rleb a b = true <-> a <= b.
Proof. intros; unfold rleb; destruct (Rle_dec a b); split; auto; discriminate. Qed.
Lemma rleb_false : forall a b, rleb a b = false <-> b < a.
Proof. intros; unfold rleb; destruct (Rle_dec a b); split; intros; auto; try discriminate; lra. Qed.
Lemma reqb_true : forall a b, reqb a b = true <-> a = b.
Proof. intros; unfold reqb; destruct (Req_EM_T a b); split; auto; discriminate. Qed.
Lemma reqb_false : forall a b, reqb a b = false <-> a <> b.
Proof. intros; unfold reqb; destruct (Req_EM_T a b); split; auto; try discriminate; tauto. Qed.

Lemma ndiv_fin : forall a b, b <> 0 -> ndiv (Fin a) (Fin b) = Fin (a / b).
Proof. intros a b H; simpl. apply reqb_false in H. rewrite H. reflexivity. Qed.
Lemma nsqrt_fin : forall a, 0 <= a -> nsqrt (Fin a) = Fin (sqrt a).
Proof. intros a H; simpl. apply rltb_false in H. rewrite H. reflexivity. Qed.
Lemma nlog_fin : forall a, 0 < a -> nlog (Fin a) = Fin (ln a).
Proof. intros a H; simpl. apply rltb_true in H. rewrite H. reflexivity. Qed.
Lemma nsub_fin : forall a b, nsub (Fin a) (Fin b) = Fin (a - b).
Proof. reflexivity. Qed.

Lemma nleb_fin : forall a b, nleb (Fin a) (Fin b) = rleb a b.
Proof.
  intros a b. unfold nleb; simpl. unfold rltb, reqb, rleb.
  destruct (Rlt_dec a b), (Req_EM_T a b), (Rle_dec a b); simpl; auto; exfalso; lra.
Qed.

Lemma nsum_fin : forall l, nsum (map Fin l) = Fin (rsum l).
Proof. induction l as [|a l IH]; simpl; auto. rewrite IH. reflexivity. Qed.
Lemma nmean_fin : forall l, l <> [] -> nmean (map Fin l) = Fin (rmean l).
Proof.
  intros l H. unfold nmean, nofnat, rmean. rewrite nsum_fin, map_length. apply ndiv_fin.
  destruct l; [congruence|]. apply not_0_INR. simpl; lia.
Qed.
Lemma nvar_fin : forall d l, (d < length l)%nat -> nvar d (map Fin l) = Fin (rvar d l).
Proof.
  intros d l H. unfold nvar, rvar. rewrite nmean_fin by (destruct l; simpl in *; [lia|congruence]).
  rewrite map_map, map_length.
  assert (E : map (fun x => nsqr (nsub (Fin x) (Fin (rmean l)))) l = map Fin (map (fun x => (x - rmean l) * (x - rmean l)) l)).
  { rewrite map_map. apply map_ext. intros; reflexivity. }
  rewrite E, nsum_fin. apply ndiv_fin. apply not_0_INR. lia.
Qed.
Lemma rsum_nonneg : forall l, (forall x, In x l -> 0 <= x) -> 0 <= rsum l.
Proof. induction l; simpl; intros H; [lra|]. assert (0 <= a) by auto. assert (0 <= rsum l) by auto. lra. Qed.
Lemma rvar_nonneg : forall d l, (d < length l)%nat -> 0 <= rvar d l.
Proof.
  intros d l H. unfold rvar. apply Rmult_le_pos.
  - apply rsum_nonneg. intros x Hx. apply in_map_iff in Hx as [y [<- _]]. apply Rle_0_sqr.
  - left. apply Rinv_0_lt_compat, lt_0_INR. lia.
Qed.
Lemma nstd_fin : forall d l, (d < length l)%nat -> nstd d (map Fin l) = Fin (sqrt (rvar d l)).
Proof. intros d l H. unfold nstd. rewrite nvar_fin by auto. apply nsqrt_fin, rvar_nonneg; auto. Qed.

Lemma rsum_app : forall a b, rsum (a ++ b) = rsum a + rsum b.
Proof. induction a; simpl; intros; [lra|]. rewrite IHa. lra. Qed.
Lemma rsum_ext : forall A (f g : A -> R) l, (forall x, In x l -> f x = g x) -> rsum (map f l) = rsum (map g l).
Proof. induction l; simpl; intros H; auto. rewrite H by auto. rewrite IHl; auto. Qed.
Lemma rsum_scal : forall A (f : A -> R) c l, rsum (map (fun x => c * f x) l) = c * rsum (map f l).
Proof. induction l; simpl; [lra|]. rewrite IHl. lra. Qed.
Lemma rsum_plus : forall A (f g : A -> R) l, rsum (map (fun x => f x + g x) l) = rsum (map f l) + rsum (map g l).
Proof. induction l; simpl; [lra|]. rewrite IHl. lra. Qed.
Lemma rsum_const : forall A (c : R) (l : list A), rsum (map (fun _ => c) l) = INR (length l) * c.
Proof. induction l; [simpl; lra|]. simpl map. simpl rsum. rewrite IHl. cbn [length]. rewrite S_INR. lra. Qed.
Lemma rsum_le : forall A (f g : A -> R) l, (forall x, In x l -> f x <= g x) -> rsum (map f l) <= rsum (map g l).
Proof. induction l; simpl; intros H; [lra|]. assert (f a <= g a) by auto. assert (rsum (map f l) <= rsum (map g l)) by auto. lra. Qed.
Lemma rsum_swap : forall A B (f : A -> B -> R) l1 l2,
  rsum (map (fun a => rsum (map (f a) l2)) l1) = rsum (map (fun b => rsum (map (fun a => f a b) l1)) l2).
Proof.
  induction l1; intros; simpl.
  - rewrite rsum_const. lra.
  - rewrite IHl1, <- rsum_plus. reflexivity.
Qed.
