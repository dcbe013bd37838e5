(** Model of quantfinlib/clustering/metrics.py and quantfinlib/clustering/hierarchical.py. *)
From Coq Require Import Reals String Ascii List Arith Bool ZArith.
From Verif Require Import Base Num Sums Sim_Model Dist_Model Info_Model Feat_Model.
Import ListNotations.
Open Scope R_scope.

(* ------------------------------------------------------------------ *)
(** ** numpy contracts *)

(** The global generator np.random of numpy: a state, np.random.seed, and one draw of a double in [0, 1).  The algorithm (Mersenne
    twister) is external, so every theorem is about every generator. *)
Record generator := mkGen { gstate : Type; gseed : Z -> gstate; gdraw : gstate -> R * gstate }.

(** m draws, in order *)
Fixpoint gdraws (G : generator) (m : nat) (s : gstate G) : list R * gstate G :=
  match m with
  | O => ([], s)
  | S m' => let '(u, s1) := gdraw G s in let '(us, s2) := gdraws G m' s1 in (u :: us, s2)
  end.

(** np.max over all entries of a two-dimensional array: NaN if there is one *)
Definition np_max2 (a : arr2) : num :=
  np_amax (flat_map (fun i => map (at2 a i) (seq 0 (ncol a))) (seq 0 (nrow a))).
(** np.sum over all entries *)
Definition np_sum2 (a : arr2) : num := nsum (flat_map (fun i => map (at2 a i) (seq 0 (ncol a))) (seq 0 (nrow a))).
(** len(np.unique(labels)): the NaNs count once *)
Definition num_eq_dec (x y : num) : {x = y} + {x <> y}.
Proof. destruct x as [a| | |], y as [b| | |]; try (left; reflexivity); try (right; discriminate).
  destruct (Req_EM_T a b) as [H|H]; [left; congruence | right; congruence].
Defined.
Definition n_unique (l : list num) : nat := length (nodup num_eq_dec l).
(** np.triu *)
Definition np_triu (a : arr2) : arr2 := mkArr (nrow a) (ncol a) (fun i j => if Nat.leb i j then at2 a i j else Fin 0).
Definition add2 (a b : arr2) : arr2 := mkArr (nrow a) (ncol a) (fun i j => nadd (at2 a i j) (at2 b i j)).
Definition transpose2 (a : arr2) : arr2 := mkArr (ncol a) (nrow a) (fun i j => at2 a j i).

(** the shape of [dist] after to_numpy (util/_dtypes.py 13-17), for an argument that passed the validators *)
Definition values2 (x : obj) : arr2 :=
  match x with OArr2 a | OFrame _ a => a | _ => mkArr 0 0 (fun _ _ => NaN) end.

(* ------------------------------------------------------------------ *)
(** ** metrics.py *)

(** The two decorators (91-92, 22-23: labels first, then dist), the row check of 17-19 and to_numpy.  Simplification: None for
    dist or labels, which the decorators let through, is not an argument of the model. *)
Definition metric_inputs (dist labels : obj) : res (arr2 * list num) :=
  l <- check_1d labels ;;
  _ <- check_2d dist ;;
  let a := values2 dist in
  if negb (Nat.eqb (nrow a) (length l)) then Raise AssertionError else Ok (a, l).

(** metrics.py 60 within_clstr_identifier *)
Definition identifier (l : list num) (i j : nat) : num := if neqb (nth i l NaN) (nth j l NaN) then Fin 1 else Fin 0.
(** metrics.py 63 and 80: np.sum(identifier * a ** 2) / (4 * k) *)
Definition dispersion (l : list num) (k : nat) (a : arr2) : num :=
  ndiv (np_sum2 (mkArr (nrow a) (ncol a) (fun i j => nmul (identifier l i j) (nsqr (at2 a i j))))) (Fin (4 * INR k)).
(** metrics.py 74: uniform(0, high, size=(n, n)) fills row by row with 0 + (high - 0) * draw *)
Definition uniform2 (high : R) (n : nat) (us : list R) : arr2 :=
  mkArr n n (fun i j => Fin (0 + (high - 0) * nth (i * n + j) us 0)).
(** metrics.py 76-78 *)
Definition reference (a : arr2) : arr2 := fill_diag (Fin 0) (add2 (np_triu a) (transpose2 (np_triu a))).
(** metrics.py 81 *)
Definition log_or_zero (w : num) : num := if ngtb w (Fin 0) then nlog w else Fin 0.

(** metrics.py 71-83, the loop over b.  np.random.seed accepts 0 .. 2^32 - 1 and raises ValueError otherwise;
    np.random.uniform raises OverflowError when the range is not finite. *)
Fixpoint boot_loop (G : generator) (a : arr2) (l : list num) (k : nat) (seed : Z) (todo : nat) (b : nat) (boots : list num) (E : num)
    (s : gstate G) : res (list num * num) * gstate G :=
  match todo with
  | O => (Ok (boots, E), s)
  | S todo' =>
      let sb := (seed + Z.of_nat b)%Z in
      if (sb <? 0)%Z || (2 ^ 32 - 1 <? sb)%Z then (Raise ValueError, s)
      else
        let s := gseed G sb in
        match np_max2 a with
        | Fin m =>
            let n := length l in
            let '(us, s) := gdraws G (n * n) s in
            let lw := log_or_zero (dispersion l k (reference (uniform2 m n us))) in
            boot_loop G a l k seed todo' (S b) (boots ++ [lw]) (nadd E lw) s
        | _ => (Raise OverflowError, s)
        end
  end.

(** metrics.py 22-88 gap_statistic; [s] is the state of np.random before the call, the second component of the result the one after.
    The product of 63 raises ValueError when the array is not square (its rows and columns are at least two).  nb = 0 divides
    the Python integer 0 by 0. *)
Definition gap_statistic (G : generator) (s : gstate G) (dist labels : obj) (nb : Z) (random_state : option Z)
    : res (num * num) * gstate G :=
  match metric_inputs dist labels with
  | Raise e => (Raise e, s)
  | Ok (a, l) =>
      if negb (Nat.eqb (nrow a) (ncol a)) then (Raise ValueError, s)
      else
        let k := n_unique l in
        let Wk := dispersion l k a in
        let seed := match random_state with Some r => r | None => 0%Z end in
        match boot_loop G a l k seed (Z.to_nat nb) 0 [] (Fin 0) s with
        | (Raise e, s) => (Raise e, s)
        | (Ok (boots, E), s) =>
            if (nb =? 0)%Z then (Raise ZeroDivisionError, s)
            else (Ok (nsub (ndiv E (Fin (IZR nb))) (nlog Wk), nstd 0 boots), s)
        end
  end.

(** sklearn.metrics.silhouette_samples(X, labels, metric="precomputed"), an external function given by its contract: finite square
    input with a zero diagonal (up to 100 eps) and 2 .. n-1 different labels, otherwise ValueError; for each point the mean
    distance a to the other points of its cluster and the smallest mean distance b to the points of another cluster, (b - a) /
    max(a, b), and 0 where that is not a number. *)
Definition cluster_of (l : list num) (x : num) : list nat := filter (fun j => neqb x (nth j l NaN)) (seq 0 (length l)).
Definition mean_dist (a : arr2) (i : nat) (js : list nat) (count : nat) : num :=
  ndiv (nsum (map (fun j => at2 a i j) js)) (nofnat count).
Definition nmin (x y : num) : num := if is_nan x then NaN else if is_nan y then NaN else if nltb y x then y else x.
Definition nmax (x y : num) : num := if is_nan x then NaN else if is_nan y then NaN else if nltb x y then y else x.
Definition nan_to_num (x : num) : num := match x with NaN => Fin 0 | _ => x end.
Definition silhouette_of (a : arr2) (l : list num) (i : nat) : num :=
  let own := nth i l NaN in
  let intra := mean_dist a i (cluster_of l own) (length (cluster_of l own) - 1) in
  let others := filter (fun x => negb (neqb x own)) (nodup num_eq_dec l) in
  let inter := fold_right nmin PInf (map (fun x => mean_dist a i (cluster_of l x) (length (cluster_of l x))) others) in
  nan_to_num (ndiv (nsub inter intra) (nmax intra inter)).
Definition silhouette_samples (a : arr2) (l : list num) : res (list num) :=
  let n := nrow a in
  if negb (forallb (fun i => forallb (fun j => is_fin (at2 a i j)) (seq 0 (ncol a))) (seq 0 n)) then Raise ValueError
  else if negb (forallb is_fin l) then Raise ValueError
  else if negb (Nat.eqb n (ncol a)) then Raise ValueError
  else if existsb (fun i => ngtb (nabs (at2 a i i)) (Fin (100 / 2 ^ 52))) (seq 0 n) then Raise ValueError
  else if negb (Nat.ltb 1 (n_unique l) && Nat.ltb (n_unique l) n) then Raise ValueError
  else Ok (map (silhouette_of a l) (seq 0 n)).

(** metrics.py 91-113 silhouette_tstat *)
Definition silhouette_tstat (dist labels : obj) : res num :=
  al <- metric_inputs dist labels ;;
  ss <- silhouette_samples (fst al) (snd al) ;;
  Ok (ndiv (nmean ss) (nstd 0 ss)).

(* ------------------------------------------------------------------ *)
(** ** hierarchical.py, optimize_n_clusters *)

(** range(2, max_clust + 1) *)
Definition nclust_range (max_clust : Z) : list Z := map (fun i => (Z.of_nat i + 2)%Z) (seq 0 (Z.to_nat (max_clust - 1))).

(** hierarchical.py 173-177, the loop over the numbers of clusters.  [cut k] is hierarchy.cut_tree(linkage, n_clusters=k).flatten(),
    an external function. *)
Fixpoint gap_loop (G : generator) (cut : Z -> res (list num)) (dist : obj) (nb : Z) (ks : list Z) (acc : list (num * num)) (s : gstate G)
    : res (list (num * num)) * gstate G :=
  match ks with
  | [] => (Ok acc, s)
  | k :: ks' =>
      match cut k with
      | Raise e => (Raise e, s)
      | Ok labels =>
          match gap_statistic G s dist (OArr1 labels) nb None with
          | (Raise e, s) => (Raise e, s)
          | (Ok gs, s) => gap_loop G cut dist nb ks' (acc ++ [gs]) s
          end
      end
  end.

(** np.where(c)[0] *)
Definition np_where (c : list bool) : list nat := filter (fun i => nth i c false) (seq 0 (length c)).
(** hierarchical.py 179: gap[:-1] - gap[1:] + gap_std[1:] > 0 *)
Definition gap_condition (gs : list (num * num)) : list bool :=
  map (fun p => ngtb (nadd (nsub (fst (fst p)) (fst (snd p))) (snd (snd p))) (Fin 0)) (combine (removelast gs) (tl gs)).

(** hierarchical.py 144-188 optimize_n_clusters *)
Definition optimize_n_clusters (G : generator) (s : gstate G) (cut : Z -> res (list num)) (dist : obj) (max_clust : Z) (metric : string)
    (nb : Z) : res Z * gstate G :=
  if String.eqb metric "gap" then
    match gap_loop G cut dist nb (nclust_range max_clust) [] s with
    | (Raise e, s) => (Raise e, s)
    | (Ok gs, s) =>
        match np_where (gap_condition gs) with
        | [] => (Raise IndexError, s)
        | k :: _ => (Ok (Z.of_nat k + 2)%Z, s)
        end
    end
  else if String.eqb metric "silhouette" then
    (match mapM (fun k => labels <- cut k ;; silhouette_tstat dist (OArr1 labels)) (nclust_range max_clust) with
     | Raise e => Raise e
     | Ok [] => Raise ValueError
     | Ok ts => Ok (Z.of_nat (argmax ts) + 2)%Z
     end, s)
  else (Raise ValueError, s).

(* ------------------------------------------------------------------ *)
(** ** hierarchical.py, class HC *)

(** s.split("-")[0] *)
Fixpoint before_dash (s : string) : string :=
  match s with
  | EmptyString => EmptyString
  | String c s' => if Ascii.eqb c "-"%char then EmptyString else String c (before_dash s')
  end.

(** hierarchical.py 87-111 _compute_distance_matrix; default bins and norm of var_info (information.py) *)
Definition compute_distance_matrix (spearman : arr2 -> arr2) (X corr : option obj) (codependence_method corr_to_dist_method : string) : res obj :=
  if existsb (String.eqb codependence_method) ["pearson-correlation"; "spearman-correlation"]%string then
    match corr with
    | None =>
        match X with
        | None => Raise ValueError
        | Some X => get_corr_distance_matrix spearman X (before_dash codependence_method) corr_to_dist_method None
        end
    | Some corr => corr_to_dist corr corr_to_dist_method
    end
  else if String.eqb codependence_method "var_info" then
    match X with
    | None => Raise ValueError
    | Some X => get_info_distance_matrix X "var_info" None true
    end
  else Raise ValueError.

(** the attributes of an HC object that its methods read; L is the type of linkage matrices *)
Record HC (L : Type) := mkHC { hc_dist : obj; hc_linkage_method : string; hc_optimal_ordering : bool; hc_linkage : option L }.
Arguments mkHC {L}. Arguments hc_dist {L}. Arguments hc_linkage_method {L}. Arguments hc_optimal_ordering {L}. Arguments hc_linkage {L}.

(** hierarchical.py 64-85 __init__ *)
Definition hc_init (L : Type) (spearman : arr2 -> arr2) (X corr dist : option obj) (codependence_method corr_to_dist_method linkage_method : string)
    (optimal_ordering : bool) : res (HC L) :=
  d <- match dist with
       | None => compute_distance_matrix spearman X corr codependence_method corr_to_dist_method
       | Some d => Ok d
       end ;;
  Ok (mkHC d linkage_method optimal_ordering None).

(** What is external to the class: [link] is hierarchy.linkage(squareform(dist), method, optimal_ordering), [cuttree] is
    hierarchy.cut_tree(Z, n).flatten(). *)
Record scipy := mkScipy { slink : Type; link : obj -> string -> bool -> res slink; cuttree : slink -> Z -> res (list num) }.

(** hierarchical.py 113-122 the property linkage *)
Definition hc_get_linkage (P : scipy) (h : HC (slink P)) : res (slink P) * HC (slink P) :=
  match hc_linkage h with
  | Some z => (Ok z, h)
  | None =>
      match link P (hc_dist h) (hc_linkage_method h) (hc_optimal_ordering h) with
      | Raise e => (Raise e, h)
      | Ok z => (Ok z, mkHC (hc_dist h) (hc_linkage_method h) (hc_optimal_ordering h) (Some z))
      end
  end.
(** hierarchical.py 124-137 get_clusters *)
Definition hc_get_clusters (P : scipy) (h : HC (slink P)) (n : Z) : res (list num) * HC (slink P) :=
  match hc_get_linkage P h with
  | (Raise e, h) => (Raise e, h)
  | (Ok z, h) => (cuttree P z n, h)
  end.
(** hierarchical.py 139-141 get_optimal_nclusters *)
Definition hc_get_optimal (P : scipy) (G : generator) (s : gstate G) (h : HC (slink P)) (max_clust : Z) (metric : string) (nb : Z)
    : res Z * HC (slink P) * gstate G :=
  match hc_get_linkage P h with
  | (Raise e, h) => (Raise e, h, s)
  | (Ok z, h) => let '(r, s) := optimize_n_clusters G s (cuttree P z) (hc_dist h) max_clust metric nb in (r, h, s)
  end.

(** What a program can do with an HC object: the property, the two methods, assigning an attribute, and drawing from np.random in
    between *)
Inductive hc_op :=
| OpLinkage
| OpClusters (n : Z)
| OpOptimal (max_clust : Z) (metric : string) (nb : Z)
| OpSetDist (d : obj)
| OpSetMethod (m : string)
| OpSetOrdering (b : bool)
| OpReseed (seed : Z).
(** what the operation returns *)
Inductive hc_out (L : Type) :=
| OutLinkage (r : res L)
| OutClusters (r : res (list num))
| OutOptimal (r : res Z)
| OutNone.
Arguments OutLinkage {L}. Arguments OutClusters {L}. Arguments OutOptimal {L}. Arguments OutNone {L}.

Definition hc_step (P : scipy) (G : generator) (hs : HC (slink P) * gstate G) (o : hc_op) : hc_out (slink P) * (HC (slink P) * gstate G) :=
  let '(h, s) := hs in
  match o with
  | OpLinkage => let '(r, h) := hc_get_linkage P h in (OutLinkage r, (h, s))
  | OpClusters n => let '(r, h) := hc_get_clusters P h n in (OutClusters r, (h, s))
  | OpOptimal m metric nb => let '(r, h, s) := hc_get_optimal P G s h m metric nb in (OutOptimal r, (h, s))
  | OpSetDist d => (OutNone, (mkHC d (hc_linkage_method h) (hc_optimal_ordering h) (hc_linkage h), s))
  | OpSetMethod m => (OutNone, (mkHC (hc_dist h) m (hc_optimal_ordering h) (hc_linkage h), s))
  | OpSetOrdering b => (OutNone, (mkHC (hc_dist h) (hc_linkage_method h) b (hc_linkage h), s))
  | OpReseed seed => (OutNone, (h, gseed G seed))
  end.
Fixpoint hc_run (P : scipy) (G : generator) (hs : HC (slink P) * gstate G) (os : list hc_op) : list (hc_out (slink P)) * (HC (slink P) * gstate G) :=
  match os with
  | [] => ([], hs)
  | o :: os' => let '(r, hs1) := hc_step P G hs o in let '(rs, hs2) := hc_run P G hs1 os' in (r :: rs, hs2)
  end.
