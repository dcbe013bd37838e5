(** Property C95 for the Ornstein-Uhlenbeck model: a correlation matrix of the wrong size. *)
From Coq Require Import Reals Lra String ZArith List Arith Bool Lia.
From Verif Require Import Base Num Sums Lin Sim_Model Sim_Spec Sim_Proofs Sim_Props Sim_Fit_Proofs Sim_Fit_Props Chol_Model Chol_Proofs Sim_Cor_Spec Sim_Cor_Props.
Import ListNotations.
Open Scope R_scope.

Lemma pmap2_either : forall f p q, (exists r, pmap2 f p q = Ok r) \/ pmap2 f p q = Raise ValueError.
Proof. intros f [a|l] [b|l']; cbn [pmap2]; try (left; eexists; reflexivity). destruct (_ || _); [left; eexists; reflexivity|right; reflexivity]. Qed.

(** It is accepted at construction, whatever the sizes of the other parameters; every simulation fails. *)
Theorem C95_wrong_size_ou : forall n C mean mrr vol x0 dt z steps P, posdef n C ->
  mean <> [] -> n <> length mean -> x0 <> [] -> Nat.divide (length x0) (length mean * P) -> 0 < dt ->
  exists o, ou_new np_cholesky (DNp1 mean) (DNp1 mrr) (DNp1 vol) (Some (farr n n C)) = Ok o
    /\ ou_path_sample o z (X0Data (DNp1 x0)) (Some (Fin dt)) steps P None None None true = Raise ValueError.
Proof.
  intros n C d mrr vol x0 dt z steps P HC Hd Hn Hx Hdiv Hdt. destruct (proj1 (np_cholesky_spec n C (proj1 HC)) HC) as (l & El & _).
  unfold ou_new, ou_init. cbn [to_row bind]. rewrite El. cbn [bind]. eexists. split; [reflexivity|].
  unfold ou_path_sample. cbn [o_fit o_par]. rewrite path_sample_plain by exact Hdt. unfold ou_path_np. set (m := mkOU _ _ _ _ _).
  assert (A : (exists r, ou_mean_term m (Fin dt) = Ok r) \/ ou_mean_term m (Fin dt) = Raise ValueError) by apply pmap2_either.
  destruct A as [(mt & ->)| ->]; [|reflexivity]. cbn [bind].
  assert (A : (exists r, ou_scale m (Fin dt) = Ok r) \/ ou_scale m (Fin dt) = Raise ValueError).
  { unfold ou_scale. destruct (pmap2_either ndiv (pmap nsqr (ou_vol m)) (pmap (nmul (Fin 2)) (ou_mrr m))) as [(q & ->)| ->]; [|right; reflexivity]. cbn [bind].
    destruct (pmap2_either nmul q (pmap (fun k => nsub (Fin 1) (nexp (nmul (nmul (Fin (-2)) k) (Fin dt)))) (ou_mrr m))) as [(r & ->)| ->]; [left; eexists; reflexivity|right; reflexivity]. }
  destruct A as [(sc & ->)| ->]; [|reflexivity]. cbn [bind]. unfold m. cbn [ou_mean ou_L].
  assert (X : exists r, set_x0 x0 (length d * P) = Ok r).
  { unfold set_x0. destruct x0 as [|x' x'']; [congruence|]. destruct Hdiv as [q ->]. rewrite Nat.div_mul by discriminate. rewrite (Nat.mul_comm q), Nat.eqb_refl. eexists; reflexivity. }
  destruct X as (r & ->). cbn [bind]. assert (Z : Nat.eqb (length d) 0 = false) by (destruct d; [congruence|reflexivity]). rewrite Z.
  unfold fill_noise. cbn [nrow ncol farr]. rewrite (proj2 (Nat.eqb_neq n (length d)) Hn). reflexivity.
Qed.
Print Assumptions C95_wrong_size_ou.
(** three means, a correlation matrix of two series *)
Example C95_wrong_size_ou_example : forall z steps, exists o, ou_new np_cholesky (DNp1 [Fin 0; Fin 1; Fin 2]) (DNp1 [Fin 1]) (DNp1 [Fin 1]) (Some (farr 2 2 (cor2 (1 / 2)))) = Ok o
  /\ ou_path_sample o z (X0Data (DNp1 [Fin 0])) (Some (Fin 1)) steps 4 None None None true = Raise ValueError.
Proof. intros z steps. apply C95_wrong_size_ou; try discriminate; [apply cor2_posdef; lra|apply Nat.divide_1_l|lra]. Qed.
