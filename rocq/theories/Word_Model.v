(** Model of the splitters for groups given as a numpy array of fixed-width integers: numpy's arithmetic wraps around, so [np.diff(groups)],
    [max_test_group + n_purge] and [min_test_group - n_embargo] are taken modulo 2^w.  A Python integer that does not fit the type of the array
    is an OverflowError (numpy 2). *)
From Coq Require Import List ZArith Bool Arith.
From Verif Require Import Base Split_Model.
Import ListNotations.
Open Scope Z_scope.

(** uintW and intW, W > 0 bits *)
Inductive word := Unsigned (w : positive) | Signed (w : positive).
Definition bits (t : word) : Z := match t with Unsigned w | Signed w => Zpos w end.
(** smallest value of the type *)
Definition low (t : word) : Z := match t with Unsigned _ => 0 | Signed w => - 2 ^ (Zpos w - 1) end.
(** the value a result is stored as *)
Definition wrap (t : word) (z : Z) : Z := (z - low t) mod 2 ^ bits t + low t.
(** can be stored as it is *)
Definition fitsb (t : word) (z : Z) : bool := (low t <=? z) && (z <? low t + 2 ^ bits t).

(** [np.all(np.diff(groups) >= 0)] *)
Fixpoint w_sortedb (t : word) (l : list Z) : bool :=
  match l with
  | a :: ((b :: _) as r) => (0 <=? wrap t (b - a)) && w_sortedb t r
  | _ => true
  end.
(** _base.py 158-177 BaseCV.split for an array X of n rows, with or without y, and an integer array of groups *)
Definition w_basecv (t : word) (v : list Z) : res unit := if w_sortedb t v then Ok tt else Raise ValueError.
(** _base.py 13-49 _validate_purge_embargo_inputs *)
Definition w_validate (t : word) (v : list Z) (d : delta) : res Z :=
  match d with
  | DInt a => if a <? 0 then Raise ValueError else if w_sortedb t v then Ok a else Raise ValueError
  | DTd _ => Raise TypeError
  end.
(** scalar + Python integer, scalar - Python integer *)
Definition w_add (t : word) (m : option Z) (a : Z) : res (option Z) :=
  if fitsb t a then Ok (option_map (fun x => wrap t (x + a)) m) else Raise OverflowError.
Definition w_sub (t : word) (m : option Z) (a : Z) : res (option Z) :=
  if fitsb t a then Ok (option_map (fun x => wrap t (x - a)) m) else Raise OverflowError.
(** _base.py 52-90 _purge *)
Definition w_purge (t : word) (train test indices : list nat) (v : list Z) (n_purge : delta) : res (list nat) :=
  a <- w_validate t v n_purge ;;
  mx <- sel_max (mkG ArrInt v) test ;;
  hi <- w_add t mx a ;;
  purged <- mask_select indices (mkG ArrInt v) (fun x => cmp_o Z.leb x hi && cmp_o Z.gtb x mx) ;;
  let train := setdiff1d train purged in
  match train with [] => Raise ValueError | _ => Ok (setdiff1d train purged) end.
(** _base.py 93-131 _embargo *)
Definition w_embargo (t : word) (train test indices : list nat) (v : list Z) (n_embargo : delta) : res (list nat) :=
  a <- w_validate t v n_embargo ;;
  mn <- sel_min (mkG ArrInt v) test ;;
  lo <- w_sub t mn a ;;
  embargoed <- mask_select indices (mkG ArrInt v) (fun x => cmp_o Z.geb x lo && cmp_o Z.ltb x mn) ;;
  let train := setdiff1d train embargoed in
  match train with [] => Raise ValueError | _ => Ok train end.
(** kfoldpe.py 150-160 *)
Definition w_train (t : word) (indices test : list nat) (v : list Z) (look : bool) (n_embargo n_purge : delta) : res (list nat) :=
  tr <- get_train_index_per_split indices test (mkG ArrInt v) look ;;
  tr <- w_purge t tr test indices v n_purge ;;
  w_embargo t tr test indices v n_embargo.
Fixpoint w_loop (t : word) (indices : list nat) (v : list Z) (look : bool) (n_embargo n_purge : delta) (tests : list (list nat)) : gen :=
  match tests with
  | [] => mkGen [] Done
  | te :: ts =>
      match w_train t indices te v look n_embargo n_purge with
      | Raise e => mkGen [] (Raised e)
      | Ok tr => let r := w_loop t indices v look n_embargo n_purge ts in mkGen ((tr, te) :: yields r) (ended r)
      end
  end.
(** kfoldpe.py 107-160 TimeAwareKFold.split, driven to its end, for an array X of n rows and y an array, a Series or None *)
Definition w_kfold_split (t : word) (c : kfold) (n : nat) (v : list Z) : gen :=
  match (_ <- w_basecv t v ;;
         _ <- validate_split_settings n (kf_folds c) (kf_embargo c) (kf_purge c) ;;
         let indices := seq 0 n in
         if Nat.eqb (length v) (length indices) then
           bs <- mapM fold_bound (array_split indices (Z.to_nat (kf_folds c))) ;;
           bs <- modify_fold_bounds_all (mkG ArrInt v) bs ;;
           let tests := map bound_range bs in
           Ok (indices, if kf_look c then tl tests else tests)
         else Raise AssertionError) with
  | Raise e => mkGen [] (Raised e)
  | Ok (indices, tests) =>
      let ep := match kf_freq c with
                | Some u => (to_timedelta (kf_embargo c) u, to_timedelta (kf_purge c) u)
                | None => (kf_embargo c, kf_purge c)
                end in
      w_loop t indices v (kf_look c) (fst ep) (snd ep) tests
  end.
