(** Properties C38 to C40 for the six functions under their public names. *)
From Coq Require Import Reals Lra String List Arith Bool Lia.
From Verif Require Import Base Num Sim_Model Dist_Model Dist_Spec Dist_Proofs Dist_Props.
Import ListNotations.
Open Scope R_scope.

(** which documented formula belongs to which function *)
Definition conversions : list ((obj -> res obj) * (R -> R)) :=
  [(corr_to_angular_dist, angular); (corr_to_abs_angular_dist, abs_angular); (corr_to_squared_angular_dist, squared_angular)].
Definition pair_functions : list ((list num -> list num -> res num) * (R -> R)) :=
  [(pair_angular_distance, angular); (pair_abs_angular_distance, abs_angular); (pair_squared_angular_distance, squared_angular)].

Lemma conversions_in : forall f phi, In (f, phi) conversions -> exists m, known_method m /\ f = convert m /\ phi = formula m.
Proof.
  intros f phi H. cbn [In conversions] in H. destruct H as [H|[H|[H|[]]]]; injection H as <- <-; eexists; (split; [|split; reflexivity]).
  - left; reflexivity.
  - right; left; reflexivity.
  - right; right; reflexivity.
Qed.
Lemma pair_functions_in : forall f phi, In (f, phi) pair_functions -> exists m, known_method m /\ f = pair_distance m /\ phi = formula m.
Proof.
  intros f phi H. cbn [In pair_functions] in H. destruct H as [H|[H|[H|[]]]]; injection H as <- <-; eexists; (split; [|split; reflexivity]).
  - left; reflexivity.
  - right; left; reflexivity.
  - right; right; reflexivity.
Qed.

(** Each conversion applies its own documented formula to the correlation brought into [-1, 1]: to a number, and entry by entry to an array that
    looks like a correlation matrix (others fail), with zeros on the diagonal. *)
Theorem C38_by_name : forall f phi, In (f, phi) conversions ->
  (forall c, f (OScalar (Fin c)) = Ok (OScalar (Fin (phi (clamp c)))) /\ 0 <= phi (clamp c) <= 1)
  /\ (forall a, ~ correlation_like a -> f (OArr2 a) = Raise AssertionError)
  /\ (forall a, correlation_like a -> exists d, f (OArr2 a) = Ok (OArr2 d) /\ nrow d = nrow a /\ ncol d = nrow a
       /\ (forall i, (i < nrow a)%nat -> at2 d i i = Fin 0)
       /\ (forall i j c, (i < nrow a)%nat -> (j < nrow a)%nat -> i <> j -> at2 a i j = Fin c -> at2 d i j = Fin (phi (clamp c)))).
Proof.
  intros f phi H. apply conversions_in in H as (m & Hm & -> & ->). split; [exact (proj1 (C38_scalar m Hm))|]. split; [intros a; exact (proj2 (C38_accepts_exactly m a Hm))|].
  intros a Ha. destruct (proj1 (proj1 (C38_accepts_exactly m a Hm)) Ha) as (r & Er). destruct (C38_matrix m a r Hm Er) as (d & -> & Hr & Hc & Hd & Ho).
  exists d. split; [exact Er|]. split; [exact Hr|]. split; [exact Hc|]. split; [exact Hd|]. intros i j c Hi Hj Hn Hv. destruct (Ho i j Hi Hj Hn) as (v & Ev & _ & Hf & _). rewrite Ev. f_equal. exact (Hf c Hv).
Qed.
Print Assumptions C38_by_name.
(** opposite series: distance 1 under the first name, 0 under the second; and correlation 3/5 under the third *)
Example C38_by_name_example : corr_to_angular_dist (OScalar (Fin (-1))) = Ok (OScalar (Fin 1)) /\ corr_to_abs_angular_dist (OScalar (Fin (-1))) = Ok (OScalar (Fin 0)) /\
  exists v, corr_to_squared_angular_dist (OScalar (Fin (3/5))) = Ok (OScalar (Fin v)) /\ v * v = 16 / 25.
Proof.
  assert (K : clamp (-1) = -1) by (unfold clamp; rewrite Rmin_right by lra; apply Rmax_left; lra). assert (K' : clamp (3/5) = 3/5) by (unfold clamp; rewrite Rmin_right by lra; apply Rmax_right; lra).
  split; [|split].
  - rewrite (proj1 (proj1 (C38_by_name _ angular ltac:(left; reflexivity)) (-1))), K. unfold angular. replace ((1 - -1) / 2) with 1 by field. rewrite sqrt_1. reflexivity.
  - rewrite (proj1 (proj1 (C38_by_name _ abs_angular ltac:(right; left; reflexivity)) (-1))), K. unfold abs_angular. rewrite Rabs_left by lra. replace (1 - - -1) with 0 by ring. rewrite sqrt_0. reflexivity.
  - eexists. rewrite (proj1 (proj1 (C38_by_name _ squared_angular ltac:(right; right; left; reflexivity)) (3/5))), K'. split; [reflexivity|]. unfold squared_angular. rewrite sqrt_sqrt by nra. field.
Qed.

(** The pair functions give their own formula of the Pearson correlation of the two vectors. *)
Theorem C40_by_name : forall f phi x y, In (f, phi) pair_functions -> length x = length y -> varies x -> varies y ->
  f (map Fin x) (map Fin y) = Ok (Fin (phi (pearson x y))).
Proof. intros f phi x y H Hl Hx Hy. apply pair_functions_in in H as (m & Hm & -> & ->). apply pair_real; assumption. Qed.
Print Assumptions C40_by_name.

(** The triangle inequality for each of them. *)
Theorem C39_by_name : forall f phi x y z, In (f, phi) pair_functions -> length x = length y -> length y = length z -> varies x -> varies y -> varies z ->
  exists dxy dyz dxz, f (map Fin x) (map Fin y) = Ok (Fin dxy) /\ f (map Fin y) (map Fin z) = Ok (Fin dyz) /\ f (map Fin x) (map Fin z) = Ok (Fin dxz) /\ dxz <= dxy + dyz.
Proof. intros f phi x y z H. apply pair_functions_in in H as (m & Hm & -> & _). apply C39_triangle; exact Hm. Qed.
Print Assumptions C39_by_name.
Example C40_by_name_example : pair_abs_angular_distance (map Fin [1; 2; 4]) (map Fin [2; 1; 5]) = Ok (Fin (sqrt (1 - Rabs (pearson [1; 2; 4] [2; 1; 5])))) /\
  pair_squared_angular_distance (map Fin [1; 2; 4]) (map Fin [2; 1; 5]) = Ok (Fin (sqrt (1 - (pearson [1; 2; 4] [2; 1; 5]) ^ 2))).
Proof.
  assert (V : forall a b c, a <> b -> varies [a; b; c]) by (intros a b c H; exists a, b; cbn; tauto).
  split; [apply (C40_by_name _ abs_angular)|apply (C40_by_name _ squared_angular)]; try reflexivity; try (apply V; lra); [right; left|right; right; left]; reflexivity.
Qed.
