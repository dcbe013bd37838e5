(** Finite sums of real numbers indexed by 0 .. n-1. *)
From Coq Require Import Reals Lra List Arith Lia.
From Verif Require Import Num.
Import ListNotations.
Open Scope R_scope.

Definition sumn (n : nat) (f : nat -> R) : R := rsum (map f (seq 0 n)).
Lemma S_ext : forall n f g, (forall i, (i < n)%nat -> f i = g i) -> sumn n f = sumn n g.
Proof. intros n f g H. unfold sumn. apply rsum_ext. intros i Hi. apply in_seq in Hi. apply H. lia. Qed.
Lemma S_le : forall n f g, (forall i, (i < n)%nat -> f i <= g i) -> sumn n f <= sumn n g.
Proof. intros n f g H. unfold sumn. apply rsum_le. intros i Hi. apply in_seq in Hi. apply H. lia. Qed.
Lemma S_plus : forall n f g, sumn n (fun i => f i + g i) = sumn n f + sumn n g.
Proof. intros. unfold sumn. apply rsum_plus. Qed.
Lemma S_scal : forall n c f, sumn n (fun i => c * f i) = c * sumn n f.
Proof. intros. unfold sumn. apply rsum_scal. Qed.
Lemma S_scal_r : forall n c f, sumn n (fun i => f i * c) = sumn n f * c.
Proof. intros. rewrite Rmult_comm, <- S_scal. apply S_ext. intros. ring. Qed.
Lemma S_opp : forall n f, sumn n (fun i => - f i) = - sumn n f.
Proof. intros. replace (- sumn n f) with ((-1) * sumn n f) by ring. rewrite <- S_scal. apply S_ext. intros. ring. Qed.
Lemma S_minus : forall n f g, sumn n (fun i => f i - g i) = sumn n f - sumn n g.
Proof. intros. unfold Rminus. rewrite S_plus, S_opp. reflexivity. Qed.
Lemma S_swap : forall n m f, sumn n (fun i => sumn m (f i)) = sumn m (fun j => sumn n (fun i => f i j)).
Proof. intros. unfold sumn. apply rsum_swap. Qed.
Lemma S_zero : forall n, sumn n (fun _ => 0) = 0.
Proof. intros. unfold sumn. rewrite rsum_const. ring. Qed.
Lemma S_nonneg : forall n f, (forall i, (i < n)%nat -> 0 <= f i) -> 0 <= sumn n f.
Proof. intros n f H. rewrite <- (S_zero n). apply S_le. auto. Qed.
Lemma S_single : forall n f k, (k < n)%nat -> (forall i, (i < n)%nat -> i <> k -> f i = 0) -> sumn n f = f k.
Proof.
  intros n f k Hk H. unfold sumn. induction n as [|n IH]; [lia|]. rewrite seq_S, map_app, rsum_app. cbn [Nat.add map rsum fold_right].
  destruct (Nat.eq_dec k n) as [->|Hne].
  - rewrite (rsum_ext _ _ (fun _ => 0)); [rewrite rsum_const; ring|]. intros i Hi. apply in_seq in Hi. apply H; lia.
  - rewrite (H n) by lia. rewrite IH; [ring|lia|]. intros i Hi. apply H. lia.
Qed.
Lemma S_ge_term : forall n f k, (k < n)%nat -> (forall i, (i < n)%nat -> 0 <= f i) -> f k <= sumn n f.
Proof.
  intros n f k Hk H. assert (E : sumn n (fun i => if Nat.eqb i k then f i else 0) = f k).
  { rewrite (S_single n _ k Hk); [rewrite Nat.eqb_refl; reflexivity|].
    intros i Hi Hne. rewrite (proj2 (Nat.eqb_neq i k) Hne). reflexivity. }
  rewrite <- E. apply S_le. intros i Hi. destruct (Nat.eqb i k); [lra|auto].
Qed.

Lemma S_succ : forall n f, sumn (S n) f = sumn n f + f n.
Proof. intros. unfold sumn. rewrite seq_S, map_app, rsum_app. cbn. ring. Qed.
Lemma S_head : forall n f, sumn (S n) f = f 0%nat + sumn n (fun i => f (S i)).
Proof. intros. unfold sumn. cbn [seq map]. rewrite <- seq_shift, map_map. reflexivity. Qed.
Lemma S_0 : forall f, sumn 0 f = 0.
Proof. reflexivity. Qed.
