(** Concrete externals meeting the contracts of C51, C52: an insertion argsort, and eigenvectors and completion in two dimensions. *)
From Coq Require Import Reals Lra Psatz ZArith List Arith Bool Lia Permutation.
From Verif Require Import Base Num Sums Lin Sim_Model Cov_Model Cov_Spec Cov_Props Cov_Eig_Props Cov_More_Props.
Import ListNotations.
Open Scope R_scope.

Fixpoint put (l : list num) (i : nat) (p : list nat) : list nat :=
  match p with
  | [] => [i]
  | j :: p' => if nleb (nth i l NaN) (nth j l NaN) then i :: j :: p' else j :: put l i p'
  end.
Definition insertion_argsort (l : list num) : list nat := fold_right (put l) [] (seq 0 (length l)).

Lemma put_perm : forall l i p, Permutation (put l i p) (i :: p).
Proof. intros l i p. induction p as [|j p IH]; [reflexivity|]. cbn [put]. destruct (nleb _ _); [reflexivity|]. rewrite IH. apply perm_swap. Qed.
Lemma fold_put_perm : forall l s, Permutation (fold_right (put l) [] s) s.
Proof. intros l s. induction s as [|i s IH]; [reflexivity|]. cbn [fold_right]. rewrite put_perm. constructor. exact IH. Qed.

(** ascending, by adjacent positions *)
Fixpoint ascends (f : nat -> R) (p : list nat) : Prop :=
  match p with [] => True | i :: p' => (forall j, In j p' -> f i <= f j) /\ ascends f p' end.
Lemma ascends_nth : forall f p i j, ascends f p -> (i <= j)%nat -> (j < length p)%nat -> f (nth i p 0%nat) <= f (nth j p 0%nat).
Proof.
  intros f p. induction p as [|x p IH]; intros i j H Hij Hj; cbn [length] in Hj; [lia|]. destruct H as [H1 H2]. destruct i as [|i], j as [|j]; cbn [nth]; try lia; [lra| |].
  - apply H1, nth_In. lia.
  - apply IH; auto; lia.
Qed.
Lemma put_ascends : forall (l : list R) i p, (i < length l)%nat -> (forall j, In j p -> (j < length l)%nat) -> ascends (fun k => nth k l 0) p -> ascends (fun k => nth k l 0) (put (map Fin l) i p).
Proof.
  intros l i p Hi. induction p as [|j p IH]; intros Hp H; cbn [put].
  - split; [intros j []|exact I].
  - assert (N : forall k, (k < length l)%nat -> nth k (map Fin l) NaN = Fin (nth k l 0)) by (intros k Hk; rewrite (nth_indep _ NaN (Fin 0)) by (rewrite map_length; auto); apply map_nth).
    rewrite !N by (auto; apply Hp; left; reflexivity). rewrite nleb_fin. destruct (rleb (nth i l 0) (nth j l 0)) eqn:E.
    + apply rleb_true in E. split; [|exact H]. destruct H as [H1 H2]. intros k [<-|Hk]; [auto|]. specialize (H1 k Hk). lra.
    + apply rleb_false in E. destruct H as [H1 H2]. split.
      * intros k Hk. apply (Permutation_in _ (put_perm _ _ _)) in Hk. destruct Hk as [<-|Hk]; [lra|auto].
      * apply IH; auto. intros; apply Hp; right; auto.
Qed.
Lemma insertion_argsort_sorts : sorts insertion_argsort.
Proof.
  intros l. unfold insertion_argsort. rewrite map_length. split; [apply fold_put_perm|].
  assert (A : forall s, (forall k, In k s -> (k < length l)%nat) -> ascends (fun k => nth k l 0) (fold_right (put (map Fin l)) [] s)).
  { induction s as [|i s IH]; intros H; [exact I|]. cbn [fold_right]. apply put_ascends; [apply H; left; auto| |apply IH; intros; apply H; right; auto].
    intros j Hj. apply (Permutation_in _ (fold_put_perm _ _)) in Hj. apply H; right; auto. }
  intros i j Hij Hj. apply (ascends_nth (fun k => nth k l 0)); auto; [apply A; intros k Hk; apply in_seq in Hk; lia|].
  rewrite (Permutation_length (fold_put_perm _ _)), seq_length. exact Hj.
Qed.

(** the 2 x 2 covariance matrix with variances 4 and 1 and correlation 1/2 *)
Definition ex_A : mat := fun i j => if Nat.eqb i j then (if Nat.eqb i 0 then 4 else 1) else 1.
Definition h : R := sqrt (1 / 2).
Definition ex_U : mat := fun i j => if Nat.eqb i 1 && Nat.eqb j 0 then - h else h.
Definition ex_eigh (a : arr2) : res (list num * arr2) := Ok (map Fin [1 / 2; 3 / 2], matrix 2 ex_U).
(** completion in two dimensions: nothing given, the identity; one column (x,y), the column (-y,x) *)
Definition ex_svd (a : arr2) : res arr2 :=
  Ok (if Nat.eqb (ncol a) 0 then matrix 2 mid else mkArr 2 2 (fun i j => if Nat.eqb i 0 then nneg (at2 a 1%nat 0%nat) else at2 a 0%nat 0%nat)).

Lemma h2 : h * h = 1 / 2.
Proof. apply sqrt_sqrt. lra. Qed.
Lemma two : forall P : nat -> Prop, P 0%nat -> P 1%nat -> forall i, (i < 2)%nat -> P i.
Proof. intros P H0 H1 i Hi. destruct i as [|[|i]]; auto; lia. Qed.
Lemma two2 : forall P : nat -> nat -> Prop, P 0%nat 0%nat -> P 0%nat 1%nat -> P 1%nat 0%nat -> P 1%nat 1%nat -> forall i j, (i < 2)%nat -> (j < 2)%nat -> P i j.
Proof. intros P H1 H2 H3 H4 [|[|i]] [|[|j]] Hi Hj; auto; lia. Qed.
Lemma sum2 : forall f, sumn 2 f = f 0%nat + f 1%nat.
Proof. intros f. unfold sumn. cbn [seq map]. unfold rsum. cbn [fold_right]. ring. Qed.

Lemma ex_C : meq 2 (fun i j => ex_A i j / (sqrt (ex_A i i) * sqrt (ex_A j j))) (fun i j => if Nat.eqb i j then 1 else 1 / 2).
Proof.
  assert (S4 : sqrt 4 = 2) by (replace 4 with (2 * 2) by ring; apply sqrt_square; lra).
  intros i j Hi Hj. revert i j Hi Hj. apply two2; unfold ex_A; cbn [Nat.eqb]; rewrite ?S4, ?sqrt_1; lra.
Qed.
Lemma ex_decomposes : decomposes ex_eigh 2 (fun i j => ex_A i j / (sqrt (ex_A i i) * sqrt (ex_A j j))).
Proof.
  intros a _. exists [1 / 2; 3 / 2], (matrix 2 ex_U), ex_U. split; [reflexivity|]. split; [reflexivity|]. split; [split; [reflexivity|split; [reflexivity|intros; reflexivity]]|]. pose proof h2 as H2. split; [split|].
  - intros i j Hi Hj. revert i j Hi Hj. apply two2; unfold mmul, mtr, ex_U, mid; rewrite sum2; cbn [Nat.eqb andb]; lra.
  - intros i j Hi Hj. revert i j Hi Hj. apply two2; unfold mmul, mtr, ex_U, mid; rewrite sum2; cbn [Nat.eqb andb]; lra.
  - intros i j Hi Hj. rewrite (ex_C i j Hi Hj). revert i j Hi Hj. apply two2; unfold spectral, ex_U; rewrite sum2; cbn [Nat.eqb andb nth]; lra.
Qed.
Lemma ex_completes : completes ex_svd 2.
Proof.
  intros a k E Ra Ca Hk HE HO. unfold ex_svd. rewrite Ca. destruct k as [|[|k]]; [| |lia]; cbn [Nat.eqb].
  - exists (matrix 2 mid), mid. split; [reflexivity|]. split; [split; [reflexivity|split; [reflexivity|intros; reflexivity]]|]. cbn [Nat.ltb Nat.leb].
    split; intros i j Hi Hj; revert i j Hi Hj; apply two2; unfold mmul, mtr, mid; rewrite sum2; cbn [Nat.eqb]; lra.
  - eexists. exists (fun i j => if Nat.eqb i 0 then - E 1%nat 0%nat else E 0%nat 0%nat). split; [reflexivity|]. specialize (HO 0%nat 0%nat ltac:(lia) ltac:(lia)). rewrite sum2 in HO. unfold mid in HO. cbn [Nat.eqb] in HO. split.
    + split; [reflexivity|]. split; [reflexivity|]. intros i j Hi _. cbn [at2]. rewrite !HE by lia. destruct (Nat.eqb i 0); reflexivity.
    + split; intros i j Hi Hj; revert i j Hi Hj; apply two2; unfold mmul, mtr, mid; rewrite sum2; cbn [Nat.eqb Nat.ltb Nat.leb]; lra.
Qed.
Lemma ex_psd : psd 2 ex_A.
Proof.
  split.
  - intros i j Hi Hj. revert i j Hi Hj. apply two2; reflexivity.
  - intros x. unfold quad. rewrite !sum2. unfold ex_A. cbn [Nat.eqb]. pose proof (Rle_0_sqr (x 0%nat + x 1%nat)). pose proof (Rle_0_sqr (x 0%nat)). unfold Rsqr in *. nra.
Qed.

(** all the hypotheses of C52_valid hold here, for the automatic choice and for k = 1; the result has variances 4 and 1 *)
Example C52_example : forall k, k = None \/ k = Some 1%Z ->
  exists c info B, cov_denoise ex_eigh insertion_argsort ex_svd (Array (matrix 2 ex_A)) 10 k = Ok (c, info) /\ holds_matrix c 2 B /\ psd 2 B /\ B 0%nat 0%nat = 4 /\ B 1%nat 1%nat = 1.
Proof.
  intros k Hk.
  destruct (C52_valid ex_eigh insertion_argsort ex_svd 2 ex_A 10 k) as (c & info & B & E & HB & P & D & _);
    [lia|lia|exact ex_psd|apply two; unfold ex_A; cbn [Nat.eqb]; lra|exact insertion_argsort_sorts|exact ex_decomposes|exact ex_completes| |].
  - destruct Hk as [->| ->]; [left; reflexivity|right; exists 1%Z; split; [reflexivity|left; lia]].
  - exists c, info, B. split; [exact E|]. split; [exact HB|]. split; [exact P|]. split; [apply D; lia|apply D; lia].
Qed.

(** and so does the hypothesis of C52_variances *)
Example C52_variances_example : (forall a v V, nrow a = 2%nat -> ncol a = 2%nat -> ex_eigh a = Ok (v, V) -> nrow V = 2%nat)
  /\ exists c info, cov_denoise ex_eigh insertion_argsort ex_svd (Array (matrix 2 ex_A)) 10 None = Ok (c, info).
Proof.
  split; [intros a v V _ _ E; injection E as _ <-; reflexivity|]. destruct (C52_example None (or_introl eq_refl)) as (c & info & _ & E & _). eauto.
Qed.

(** C51 on the same decomposition: the pair of the larger eigenvalue comes first, and k = -1 drops the smaller one *)
Example C51_example : cor_to_eig ex_eigh insertion_argsort (matrix 2 mid) true (Some (-1)%Z) = Ok ([Fin (3 / 2)], take_cols [0%nat] (take_cols [1%nat] (matrix 2 ex_U))).
Proof.
  assert (Le : nleb (Fin (1 / 2)) (Fin (3 / 2)) = true) by (rewrite nleb_fin; apply rleb_true; lra).
  assert (P : insertion_argsort (map Fin [1 / 2; 3 / 2]) = [0%nat; 1%nat]) by (unfold insertion_argsort; cbn [map length seq fold_right put nth]; rewrite Le; reflexivity).
  unfold cor_to_eig, ex_eigh. cbn [bind]. rewrite P. reflexivity.
Qed.

(** C50: with four observations per variable the noise eigenvalues of variance 1 lie between 1/4 and 9/4 *)
Example C50_example : mp_support 1 4 1 = Ok (1 / 4, 9 / 4) /\ mp_pdf 1 4 1 [Fin 3; NaN] = Ok [Fin 0; Fin 0].
Proof.
  assert (E : mp_support 1 4 1 = Ok (1 / 4, 9 / 4)).
  { unfold mp_support. cbn [Nat.eqb]. assert (S : sqrt (1 / (INR 4 / INR 1)) = 1 / 2).
    { replace (1 / (INR 4 / INR 1)) with ((1 / 2) * (1 / 2)) by (cbn [INR]; field). apply sqrt_square. lra. }
    rewrite S. f_equal. f_equal; field. }
  split; [exact E|]. unfold mp_pdf. rewrite (proj2 (rleb_false 1 0)) by lra. rewrite E. cbn [bind map]. unfold mp_density, nltb. cbn [nltb]. rewrite (proj2 (rltb_false 3 (9 / 4))) by lra. rewrite Bool.andb_false_r. reflexivity.
Qed.

(** C81: with noise that happens to be zero the random correlation matrix is not a correlation matrix *)
Example C81_example : exists r C, random_cor (fun _ _ => 0) 1 = Ok r /\ holds_matrix r 1 C /\ ~ correlation_matrix 1 C.
Proof.
  destruct (C81_random_cor (fun _ _ => 0) 1 (le_n 1)) as (a & B & r & C & Ea & Ha & Er & Hr & _ & _ & _ & I).
  destruct (proj2 (C81_random_cov (fun _ _ => 0) 1) (le_n 1)) as (a' & B' & Ea' & Ha' & _ & T). rewrite Ea in Ea'. injection Ea' as <-.
  exists r, C. split; [exact Er|]. split; [exact Hr|]. intros X. apply I with (i := 0%nat) in X; [|lia].
  destruct Ha as (_ & _ & Ha), Ha' as (_ & _ & Ha'). specialize (Ha 0%nat 0%nat ltac:(lia) ltac:(lia)). rewrite (Ha' 0%nat 0%nat ltac:(lia) ltac:(lia)) in Ha. injection Ha as Hb.
  unfold trace, sumn in T. cbn in T. lra.
Qed.
