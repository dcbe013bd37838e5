(** Model of the two scipy functions the class HC of quantfinlib/clustering/hierarchical.py calls: scipy.cluster.hierarchy.linkage on
    squareform(dist) (hierarchical.py 117-121) and cut_tree (137, 174, 185).  Written from scipy's documentation and sources
    (cluster/hierarchy.py, cluster/_hierarchy.pyx, cluster/_hierarchy_distance_update.pxi, spatial/distance.py). *)
From Coq Require Import Reals String List Arith Bool ZArith.
From Verif Require Import Base Num Sums Sim_Model Dist_Model Info_Model Feat_Model Clust_Model.
Import ListNotations.
Open Scope R_scope.

(* ------------------------------------------------------------------ *)
(** ** linkage(squareform(dist), method, optimal_ordering) *)

(** squareform(dist) (hierarchical.py 118) and the checks of linkage on its result: the matrix is square, equal to its transpose, has zeros on
    the diagonal (is_valid_dm with tol 0: a NaN fails it), has two rows at least (an empty condensed vector is refused) and finite
    entries.  Simplification: a one-dimensional dist, which squareform expands, is not in the model. *)
Definition link_input (dist : obj) : res (nat * (nat -> nat -> R)) :=
  let a := values2 dist in
  let n := nrow a in
  if negb (Nat.eqb n (ncol a)) then Raise ValueError
  else if negb (forallb (fun i => forallb (fun j => neqb (at2 a i j) (at2 a j i)) (seq 0 n)) (seq 0 n)) then Raise ValueError
  else if negb (forallb (fun i => neqb (at2 a i i) (Fin 0)) (seq 0 n)) then Raise ValueError
  else if Nat.ltb n 2 then Raise ValueError
  else if negb (forallb (fun i => forallb (fun j => is_fin (at2 a i j)) (seq 0 n)) (seq 0 n)) then Raise ValueError
  else Ok (n, fun i j => real_of (at2 a i j)).

(** the linkage methods *)
Inductive method := Single | Complete | Average | Weighted | Centroid | Median | Ward.
Definition method_of (s : string) : option method :=
  if String.eqb s "single" then Some Single
  else if String.eqb s "complete" then Some Complete
  else if String.eqb s "average" then Some Average
  else if String.eqb s "weighted" then Some Weighted
  else if String.eqb s "centroid" then Some Centroid
  else if String.eqb s "median" then Some Median
  else if String.eqb s "ward" then Some Ward
  else None.

(** Distance of cluster i to the union of x and y (_hierarchy_distance_update.pxi); sx, sy, si are the numbers of items.  Simplification: where
    the argument of the square root is negative (possible for centroid, median and distances that are not Euclidean) C gives NaN. *)
Definition update (m : method) (dxi dyi dxy sx sy si : R) : R :=
  match m with
  | Single => Rmin dxi dyi
  | Complete => Rmax dxi dyi
  | Average => (sx * dxi + sy * dyi) / (sx + sy)
  | Weighted => (dxi + dyi) / 2
  | Centroid => sqrt ((sx * (dxi * dxi) + sy * (dyi * dyi) - sx * sy * (dxy * dxy) / (sx + sy)) / (sx + sy))
  | Median => sqrt ((dxi * dxi + dyi * dyi) / 2 - dxy * dxy / 4)
  | Ward => sqrt (((si + sx) * (dxi * dxi) + (si + sy) * (dyi * dyi) - si * (dxy * dxy)) / (sx + sy + si))
  end.

(** a row of the linkage matrix: the two merged clusters, their distance, the number of items *)
Record row := mkRow { r_left : nat; r_right : nat; r_height : R; r_count : nat }.

(** the clusters there are, their sizes and distances *)
Record clustering := mkClustering { active : list nat; csize : nat -> nat; cdist : nat -> nat -> R }.
Definition start (n : nat) (D : nat -> nat -> R) : clustering := mkClustering (seq 0 n) (fun _ => 1%nat) D.
(** clusters x and y become cluster [new] *)
Definition merge (m : method) (c : clustering) (x y new : nat) : clustering :=
  let upd i := update m (cdist c x i) (cdist c y i) (cdist c x y) (INR (csize c x)) (INR (csize c y)) (INR (csize c i)) in
  mkClustering
    (filter (fun i => negb (Nat.eqb i x) && negb (Nat.eqb i y)) (active c) ++ [new])
    (fun i => if Nat.eqb i new then (csize c x + csize c y)%nat else csize c i)
    (fun i j => if Nat.eqb i new then upd j else if Nat.eqb j new then upd i else cdist c i j).

(** The documented result of linkage: again and again two clusters at the smallest distance are merged, cluster n + k being made by row k.  Which
    of several closest pairs is taken, and which of the two comes first in the row, is left open: it depends on the algorithm (minimum
    spanning tree, nearest neighbour chain, generic) and on optimal_ordering. *)
Inductive link_run (m : method) : nat -> clustering -> list row -> Prop :=
| link_done : forall new c x, active c = [x] -> link_run m new c []
| link_step : forall new c x y rows,
    In x (active c) -> In y (active c) -> x <> y ->
    (forall u v, In u (active c) -> In v (active c) -> u <> v -> cdist c x y <= cdist c u v) ->
    link_run m (S new) (merge m c x y new) rows ->
    link_run m new c (mkRow x y (cdist c x y) (csize c x + csize c y) :: rows).

(** [lk] is a linkage function that follows the documentation, on distances that are not negative *)
Definition follows_scipy (lk : obj -> string -> bool -> res (list row)) : Prop :=
  forall dist s oo,
  match method_of s, link_input dist with
  | Some m, Ok (n, D) => (forall i j, (i < n)%nat -> (j < n)%nat -> 0 <= D i j) -> exists zs, lk dist s oo = Ok zs /\ link_run m n (start n D) zs
  | _, _ => lk dist s oo = Raise ValueError
  end.

(** One such function: the first closest pair, in the order of the list of clusters *)
Definition closest (c : clustering) : option (nat * nat) :=
  fold_left (fun best p => if Nat.eqb (fst p) (snd p) then best else
                           match best with
                           | None => Some p
                           | Some b => if Rlt_dec (cdist c (fst p) (snd p)) (cdist c (fst b) (snd b)) then Some p else best
                           end) (list_prod (active c) (active c)) None.
Fixpoint greedy (m : method) (todo new : nat) (c : clustering) : list row :=
  match todo with
  | O => []
  | S todo' =>
      match closest c with
      | None => []
      | Some (x, y) => mkRow x y (cdist c x y) (csize c x + csize c y) :: greedy m todo' (S new) (merge m c x y new)
      end
  end.
Definition greedy_linkage (dist : obj) (s : string) (oo : bool) : res (list row) :=
  match method_of s, link_input dist with
  | Some m, Ok (n, D) => Ok (greedy m (n - 1) n (start n D))
  | _, _ => Raise ValueError
  end.

(* ------------------------------------------------------------------ *)
(** ** cut_tree(Z, n_clusters).flatten() *)

(** ClusterNode, and to_tree: node n + k is made of the two nodes of row k *)
Inductive tree := Leaf (i : nat) | Node (l r : tree) (h : R).
Definition to_nodes (zs : list row) : list tree :=
  fold_left (fun d r => d ++ [Node (nth (r_left r) d (Leaf 0)) (nth (r_right r) d (Leaf 0)) (r_height r)]) zs (map Leaf (seq 0 (S (length zs)))).
Definition to_tree (zs : list row) : tree := last (to_nodes zs) (Leaf 0).
(** pre_order: the items below a node *)
Fixpoint leaves (t : tree) : list nat := match t with Leaf i => [i] | Node l r _ => leaves l ++ leaves r end.
(** the height of a node; nodes are compared by it *)
Definition height (t : tree) : R := match t with Leaf _ => 0 | Node _ _ h => h end.
(** bisect.insort_left *)
Fixpoint insort_left (l : list tree) (t : tree) : list tree :=
  match l with
  | [] => [t]
  | a :: l' => if Rlt_dec (height a) (height t) then a :: insort_left l' t else t :: a :: l'
  end.
(** _order_cluster_tree: breadth first, the inner nodes in the order of their heights.  The fuel, the number of nodes of the tree, is not used up. *)
Fixpoint order_nodes (fuel : nat) (q nodes : list tree) : list tree :=
  match fuel with
  | O => nodes
  | S fuel' =>
      match q with
      | [] => nodes
      | Leaf _ :: q' => order_nodes fuel' q' nodes
      | Node l r h :: q' => order_nodes fuel' (q' ++ [r; l]) (insort_left nodes (Node l r h))
      end
  end.
Fixpoint tree_size (t : tree) : nat := match t with Leaf _ => 1 | Node l r _ => S (tree_size l + tree_size r) end.
Definition order_cluster_tree (t : tree) : list tree := order_nodes (tree_size t) [t] [].

(** one pass of the loop of cut_tree: the groups of the items idx become one, with their smallest number; larger numbers than their largest
    one go down by one *)
Definition list_min (l : list nat) : nat := match l with [] => 0%nat | x :: l' => fold_left Nat.min l' x end.
Definition join_groups (g idx : list nat) : list nat :=
  let old := map (fun i => nth i g 0%nat) idx in
  let lo := list_min old in
  let hi := list_max old in
  let g1 := map (fun i => if existsb (Nat.eqb i) idx then lo else nth i g 0%nat) (seq 0 (length g)) in
  map (fun v => if Nat.ltb hi v then (v - 1)%nat else v) g1.

(** The column for n_clusters is nobs - searchsorted(arange(nobs), n_clusters), in nobs - n, at most nobs and at least 0; the columns are those
    before the loop (0) and after the passes (1 .. nobs - 1); there is none for nobs, and the initial zeros remain. *)
Definition column (nobs : nat) (n_clusters : Z) : nat := (nobs - Nat.min nobs (Z.to_nat n_clusters))%nat.
(** cut_tree; is_valid_linkage refuses negative heights.  Its other checks (numbers of clusters used before they are formed or twice) hold for
    every linkage and are not in the model. *)
Definition cut_tree (zs : list row) (n_clusters : Z) : res (list nat) :=
  if existsb (fun r => if Rlt_dec (r_height r) 0 then true else false) zs then Raise ValueError
  else
    let nobs := S (length zs) in
    let nodes := order_cluster_tree (to_tree zs) in
    let c := column nobs n_clusters in
    if Nat.ltb (length nodes) c then Ok (repeat 0%nat nobs)
    else Ok (fold_left (fun g t => join_groups g (leaves t)) (firstn c nodes) (seq 0 nobs)).

(** What the class HC calls: [lk] is hierarchy.linkage(squareform(.), ., .); the labels are integers *)
Definition scipy_with (lk : obj -> string -> bool -> res (list row)) : scipy :=
  mkScipy (list row) lk (fun zs n => g <- cut_tree zs n ;; Ok (map (fun v => Fin (INR v)) g)).
