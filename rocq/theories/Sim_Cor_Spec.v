(** Vocabulary of the statements about correlated simulation models. *)
From Coq Require Import Reals List Arith.
From Verif Require Import Base Num Sums Lin Sim_Model Sim_Spec.
Import ListNotations.
Open Scope R_scope.

(** density of the normal law of [m] variates with mean [mu], covariance [S] and inverse covariance [P] *)
Definition mvn_pdf (m : nat) (mu : nat -> R) (S P : mat) (x : nat -> R) : R :=
  exp (- (quad m P (fun i => x i - mu i) / 2)) / sqrt ((2 * PI) ^ m * det m S).
(** minus log-likelihood of n independent observations f t *)
Definition mvn_value (n m : nat) (mu : nat -> R) (S P : mat) (f : nat -> nat -> R) : R := - sumn n (fun t => ln (mvn_pdf m mu S P (f t))).
(** [mvn] is -1 * np.sum(multivariate_normal(mean, cov).logpdf(dx)): what it returns for a positive definite covariance *)
Definition mvn_law (mvn : mvn_nll) : Prop := forall n m mu S P f mean cov dx,
  posdef m S -> meq m (mmul m S P) mid ->
  length mean = m -> (forall i, (i < m)%nat -> nth i mean NaN = Fin (mu i)) ->
  nrow cov = m -> ncol cov = m -> (forall i j, (i < m)%nat -> (j < m)%nat -> at2 cov i j = Fin (S i j)) ->
  nrow dx = n -> ncol dx = m -> (forall t j, (t < n)%nat -> (j < m)%nat -> at2 dx t j = Fin (f t j)) ->
  mvn mean cov dx = Ok (Fin (mvn_value n m mu S P f)).
(** the noise vectors of all steps and paths have second moment matrix N * identity *)
Definition white (m steps P : nat) (z : nat -> R) : Prop := forall k k', (k < m)%nat -> (k' < m)%nat ->
  sumn steps (fun t => sumn P (fun p => draw m P z t p k * draw m P z t p k')) = if Nat.eqb k k' then INR (steps * P) else 0.
(** standard deviation of one OU step of length dt (C22) *)
Definition step_sd (k vol dt : R) : R := sqrt (vol ^ 2 * (1 - exp (- (2 * k * dt))) / (2 * k)).
(** [a] has n + 1 rows and m columns and holds the observations x *)
Definition observed (a : arr2) (n m : nat) (x : nat -> nat -> R) : Prop :=
  nrow a = (n + 1)%nat /\ ncol a = m /\ forall t v, (t <= n)%nat -> (v < m)%nat -> at2 a t v = Fin (x t v).
(** multivariate_normal rejects a mean whose length is not the dimension of the covariance matrix *)
Definition mvn_dim (mvn : mvn_nll) : Prop := forall mean cov dx, length mean <> nrow cov -> mvn mean cov dx = Raise ValueError.
(** the noise stream that is 1 at place q, and the one that is 0 *)
Definition unit_noise (q : nat) : nat -> R := fun i => if Nat.eqb i q then 1 else 0.
Definition zero_noise : nat -> R := fun _ => 0.
(** value of variate v after all steps of one simulated path *)
Definition endpoint (o : obj oupar) (x0 : list R) (dt : R) (steps : nat) (z : nat -> R) (v : nat) : R :=
  match ou_path_sample o (fnoise z) (X0Data (DNp1 (fins x0))) (Some (Fin dt)) steps 1 None None None true with
  | Ok out => real_of (out_at out steps v)
  | Raise _ => 0
  end.
(** change of that value per unit of noise number q *)
Definition response (o : obj oupar) (x0 : list R) (dt : R) (steps : nat) (v q : nat) : R :=
  endpoint o x0 dt steps (unit_noise q) v - endpoint o x0 dt steps zero_noise v.
(** covariance of the values of variates i and j after all steps, for independent noise numbers of variance 1 *)
Definition endpoint_cov (o : obj oupar) (x0 : list R) (dt : R) (steps m i j : nat) : R :=
  sumn (steps * m) (fun q => response o x0 dt steps i q * response o x0 dt steps j q).
(** series v is not the same at all of its n observations *)
Definition moves (n : nat) (f : nat -> nat -> R) (v : nat) : Prop := exists t t', (t < n)%nat /\ (t' < n)%nat /\ f t v <> f t' v.
(** no weighted sum of the m series, with weights not all zero, is the same at all n observations *)
Definition independent (n m : nat) (f : nat -> nat -> R) : Prop := forall w, nonzero m w ->
  exists t t', (t < n)%nat /\ (t' < n)%nat /\ sumn m (fun i => w i * f t i) <> sumn m (fun i => w i * f t' i).
(** sample mean, covariance and correlation of n observations *)
Definition s_mean (n : nat) (f : nat -> nat -> R) (v : nat) : R := sumn n (fun t => f t v) / INR n.
Definition s_cov (n : nat) (f : nat -> nat -> R) (i j : nat) : R := sumn n (fun t => (f t i - s_mean n f i) * (f t j - s_mean n f j)) / INR (n - 1).
Definition s_cor (n : nat) (f : nat -> nat -> R) (i j : nat) : R := s_cov n f i j / (sqrt (s_cov n f i i) * sqrt (s_cov n f j j)).
