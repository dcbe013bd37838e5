(** What a user of the clustering module relies on, in terms of a square matrix of real distances and one real label per point. *)
From Coq Require Import Reals String List ZArith.
From Verif Require Import Base Num Sums Sim_Model Dist_Model Clust_Model.
Import ListNotations.
Open Scope R_scope.

(** [x] is a numpy array or DataFrame that holds the n x n distances [D] *)
Definition holds_matrix (x : obj) (n : nat) (D : nat -> nat -> R) : Prop :=
  exists a, (x = OArr2 a \/ exists names, x = OFrame names a) /\ nrow a = n /\ ncol a = n /\
    forall i j, (i < n)%nat -> (j < n)%nat -> at2 a i j = Fin (D i j).
(** [y] is a numpy array or Series that holds the labels [l] *)
Definition holds_labels (y : obj) (l : list R) : Prop := y = OArr1 (map Fin l) \/ y = OSeries (map Fin l).

Definition label (l : list R) (i : nat) : R := nth i l 0.
(** sum of [f] over all ordered pairs of points with the same label *)
Definition within (l : list R) (f : nat -> nat -> R) : R :=
  sumn (length l) (fun i => sumn (length l) (fun j => if Req_EM_T (label l i) (label l j) then f i j else 0)).
(** number of different labels *)
Definition clusters (l : list R) : nat := length (nodup Req_EM_T l).
(** the two label lists describe the same partition *)
Definition same_partition (l l' : list R) : Prop :=
  length l = length l' /\ forall i j, (i < length l)%nat -> (j < length l)%nat -> label l i = label l j <-> label l' i = label l' j.
Definition is_largest (n : nat) (D : nat -> nat -> R) (M : R) : Prop :=
  (exists i j, (i < n)%nat /\ (j < n)%nat /\ D i j = M) /\ forall i j, (i < n)%nat -> (j < n)%nat -> D i j <= M.
(** the draw for row i and column j after seeding the generator *)
Definition drawn (G : generator) (seed : Z) (n i j : nat) : R := nth (i * n + j) (fst (gdraws G (n * n) (gseed G seed))) 0.
(** reference distance: uniform between 0 and the largest distance, symmetric, zero on the diagonal *)
Definition ref_dist (G : generator) (seed : Z) (n : nat) (M : R) (i j : nat) : R :=
  if Nat.eq_dec i j then 0 else M * drawn G seed n (Nat.min i j) (Nat.max i j).
(** what np.random.seed accepts *)
Definition valid_seed (s : Z) : Prop := (0 <= s < 2 ^ 32)%Z.
Definition seed_of (random_state : option Z) : Z := match random_state with Some r => r | None => 0%Z end.

(** within-cluster dispersion as the library normalises it *)
Definition disp (l : list R) (D : nat -> nat -> R) : R := within l (fun i j => D i j * D i j) / (4 * INR (clusters l)).
Definition log0 (w : R) : R := if Rlt_dec 0 w then ln w else 0.
Definition log_ref (G : generator) (seed : Z) (l : list R) (M : R) (b : nat) : R :=
  log0 (disp l (ref_dist G (seed + Z.of_nat b) (length l) M)).
Definition avg (n : nat) (f : nat -> R) : R := sumn n f / INR n.
Definition spread (n : nat) (f : nat -> R) : R := sqrt (avg n (fun b => (f b - avg n f) * (f b - avg n f))).

(** The gap statistic as published (Tibshirani, Walther, Hastie 2001): the dispersion of a cluster is the sum of its squared pair distances
    (both orders) over twice its size. *)
Definition size_of (l : list R) (i : nat) : R := sumn (length l) (fun j => if Req_EM_T (label l i) (label l j) then 1 else 0).
Definition published_disp (l : list R) (D : nat -> nat -> R) : R := within l (fun i j => D i j * D i j / (2 * size_of l i)).

(** The rule for choosing the number of clusters: the gap at k is larger than the gap at k+1 minus the standard deviation at k+1.  A gap is a
    real number or infinite (no dispersion within the clusters); an infinite gap at k+1 is never beaten. *)
Definition gap_rule (g : Z -> num) (sd : Z -> R) (k : Z) : Prop :=
  match g k, g (k + 1)%Z with
  | Fin a, Fin b => b - sd (k + 1)%Z < a
  | PInf, Fin _ => True
  | _, _ => False
  end.
Definition real_or_inf (x : num) : Prop := match x with Fin _ | PInf => True | _ => False end.
(** the published rule *)
Definition published_rule (g sd : Z -> R) (nb : Z) (k : Z) : Prop := g (k + 1)%Z - sd (k + 1)%Z * sqrt (1 + / IZR nb) <= g k.
(** k is the smallest number in lo .. hi with the property P *)
Definition smallest_in (lo hi : Z) (P : Z -> Prop) (k : Z) : Prop := (lo <= k <= hi)%Z /\ P k /\ forall j, (lo <= j < k)%Z -> ~ P j.
(** order of numbers that are no NaN *)
Definition below (x y : num) : Prop := nltb x y = true.

(** Silhouettes.  [mean_to l D i c]: mean distance of point i to the points of the cluster of point c. *)
Definition mean_to (l : list R) (D : nat -> nat -> R) (i c : nat) : R :=
  sumn (length l) (fun j => if Req_EM_T (label l c) (label l j) then D i j else 0) / size_of l c.
(** mean distance of point i to the other points of its own cluster *)
Definition mean_own (l : list R) (D : nat -> nat -> R) (i : nat) : R :=
  sumn (length l) (fun j => if Req_EM_T (label l i) (label l j) then D i j else 0) / (size_of l i - 1).
(** b is the smallest mean distance of point i to another cluster *)
Definition nearest (l : list R) (D : nat -> nat -> R) (i : nat) (b : R) : Prop :=
  (exists c, (c < length l)%nat /\ label l c <> label l i /\ b = mean_to l D i c) /\
  forall c, (c < length l)%nat -> label l c <> label l i -> b <= mean_to l D i c.
Definition alone (l : list R) (i : nat) : Prop := forall j, (j < length l)%nat -> label l j = label l i -> j = i.
(** v is the silhouette of point i: 0 for a point alone in its cluster, otherwise (b - a) / max(a, b), 0 if a = b = 0 *)
Definition is_silhouette (l : list R) (D : nat -> nat -> R) (i : nat) (v : R) : Prop :=
  (alone l i -> v = 0) /\
  (~ alone l i -> forall b, nearest l D i b ->
     (Rmax (mean_own l D i) b = 0 -> v = 0) /\ (Rmax (mean_own l D i) b <> 0 -> v = (b - mean_own l D i) / Rmax (mean_own l D i) b)).
(** mean over standard deviation; without any spread an infinity with the sign of the mean, NaN if that is 0 *)
Definition tstat (n : nat) (v : nat -> R) : num :=
  if Req_EM_T (spread n v) 0 then (if Rlt_dec 0 (avg n v) then PInf else if Rlt_dec (avg n v) 0 then NInf else NaN)
  else Fin (avg n v / spread n v).

(** What each operation returns on an object just constructed with these attributes: the linkage is scipy's for them, the clusters are its cut, the
    number of clusters is that of optimize_n_clusters on it. *)
Definition fresh_out (P : scipy) (G : generator) (s : gstate G) (dist : obj) (method : string) (ordering : bool) (o : hc_op) : hc_out (slink P) :=
  match o with
  | OpLinkage => OutLinkage (link P dist method ordering)
  | OpClusters n => OutClusters (z <- link P dist method ordering ;; cuttree P z n)
  | OpOptimal m metric nb => OutOptimal (z <- link P dist method ordering ;; fst (optimize_n_clusters G s (cuttree P z) dist m metric nb))
  | _ => OutNone
  end.
(** the operation does not assign an attribute *)
Definition reads_only (o : hc_op) : Prop := match o with OpSetDist _ | OpSetMethod _ | OpSetOrdering _ => False | _ => True end.
(** what the operation returns once the linkage z has been computed; [dist] is the attribute at the time of the call *)
Definition cached_out (P : scipy) (G : generator) (s : gstate G) (z : slink P) (dist : obj) (o : hc_op) : hc_out (slink P) :=
  match o with
  | OpLinkage => OutLinkage (Ok z)
  | OpClusters n => OutClusters (cuttree P z n)
  | OpOptimal m metric nb => OutOptimal (fst (optimize_n_clusters G s (cuttree P z) dist m metric nb))
  | _ => OutNone
  end.
(** the dist attribute after the operations *)
Fixpoint dist_after (d : obj) (os : list hc_op) : obj :=
  match os with [] => d | OpSetDist d' :: os' => dist_after d' os' | _ :: os' => dist_after d os' end.
