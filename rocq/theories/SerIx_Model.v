(** Model of quantfinlib/train_test_split for groups given as a pandas Series with an integer index: [groups[i]] and [groups[[i, j, ...]]] look
    for the labels i, j, ..., while comparisons, np.where and boolean masks work by position.  The labels are distinct. *)
From Coq Require Import List ZArith Bool Arith.
From Verif Require Import Base Split_Model.
Import ListNotations.
Open Scope Z_scope.

(** a Series of integers or of timestamps: its index and its values *)
Record sgroups := mkSG { sg_time : bool; sg_lab : list Z; sg_val : list Z }.
(** its values as groups, for the operations that work by position *)
Definition sg_pos (s : sgroups) : groups := mkG (if sg_time s then SerTime else SerInt) (sg_val s).

(** [groups[k]] *)
Definition at_label (s : sgroups) (k : Z) : res Z :=
  match find (fun p => fst p =? k) (combine (sg_lab s) (sg_val s)) with Some p => Ok (snd p) | None => Raise KeyError end.
(** [groups[test_index].max()], [.min()] *)
Definition s_max (s : sgroups) (ix : list nat) : res (option Z) :=
  vs <- mapM (fun i => at_label s (Z.of_nat i)) ix ;;
  match vs with [] => Ok None | v :: t => Ok (Some (zmax_list v t)) end.
Definition s_min (s : sgroups) (ix : list nat) : res (option Z) :=
  vs <- mapM (fun i => at_label s (Z.of_nat i)) ix ;;
  match vs with [] => Ok None | v :: t => Ok (Some (zmin_list v t)) end.

(** _base.py 52-90 _purge *)
Definition s_purge (train test indices : list nat) (s : sgroups) (n_purge : delta) : res (list nat) :=
  _ <- validate_purge_embargo_inputs (sg_pos s) n_purge ;;
  mx <- s_max s test ;;
  hi <- plus_delta_o (g_kind (sg_pos s)) mx n_purge ;;
  purged <- mask_select indices (sg_pos s) (fun v => cmp_o Z.leb v hi && cmp_o Z.gtb v mx) ;;
  let train := setdiff1d train purged in
  match train with [] => Raise ValueError | _ => Ok (setdiff1d train purged) end.
(** _base.py 93-131 _embargo *)
Definition s_embargo (train test indices : list nat) (s : sgroups) (n_embargo : delta) : res (list nat) :=
  _ <- validate_purge_embargo_inputs (sg_pos s) n_embargo ;;
  mn <- s_min s test ;;
  lo <- plus_delta_o (g_kind (sg_pos s)) mn (neg_delta n_embargo) ;;
  embargoed <- mask_select indices (sg_pos s) (fun v => cmp_o Z.geb v lo && cmp_o Z.ltb v mn) ;;
  let train := setdiff1d train embargoed in
  match train with [] => Raise ValueError | _ => Ok train end.

(** kfoldpe.py 187 [groups[groups > v][0]]: the value labelled 0, if it is among those above v *)
Definition s_next (s : sgroups) (v : Z) : res Z :=
  match at_label s 0 with Ok w => if w >? v then Ok w else Raise KeyError | Raise e => Raise e end.
(** kfoldpe.py 163-191 _modify_fold_bounds *)
Fixpoint s_modify (s : sgroups) (cur : nat * nat) (rest : list (nat * nat)) : res (list (nat * nat)) :=
  match rest with
  | [] => Ok [cur]
  | nxt :: rest' =>
      lg <- at_label s (Z.of_nat (snd cur)) ;;
      fg <- at_label s (Z.of_nat (fst nxt)) ;;
      if lg =? fg then
        ng <- s_next s lg ;;
        e <- match rev (where_eq (sg_pos s) lg) with i :: _ => Ok i | [] => Raise IndexError end ;;
        b <- match where_eq (sg_pos s) ng with i :: _ => Ok i | [] => Raise IndexError end ;;
        tl <- s_modify s (b, snd nxt) rest' ;;
        Ok ((fst cur, e) :: tl)
      else
        tl <- s_modify s nxt rest' ;;
        Ok (cur :: tl)
  end.
Definition s_modify_all (s : sgroups) (bs : list (nat * nat)) : res (list (nat * nat)) :=
  match bs with [] => Ok [] | b :: rest => s_modify s b rest end.
(** kfoldpe.py 194-221 _get_train_index_per_split *)
Definition s_train_index (indices test : list nat) (s : sgroups) (look : bool) : res (list nat) :=
  let train := setdiff1d indices test in
  if look then
    match test with
    | [] => Raise IndexError
    | t0 :: _ =>
        g0 <- at_label s (Z.of_nat t0) ;;
        later <- mask_select indices (sg_pos s) (fun v => v >? g0) ;;
        Ok (setdiff1d train later)
    end
  else Ok train.
(** kfoldpe.py 150-160 *)
Definition s_train (indices test : list nat) (s : sgroups) (look : bool) (n_embargo n_purge : delta) : res (list nat) :=
  tr <- s_train_index indices test s look ;;
  tr <- s_purge tr test indices s n_purge ;;
  s_embargo tr test indices s n_embargo.
Fixpoint s_loop (indices : list nat) (s : sgroups) (look : bool) (n_embargo n_purge : delta) (tests : list (list nat)) : gen :=
  match tests with
  | [] => mkGen [] Done
  | t :: ts =>
      match s_train indices t s look n_embargo n_purge with
      | Raise e => mkGen [] (Raised e)
      | Ok tr => let r := s_loop indices s look n_embargo n_purge ts in mkGen ((tr, t) :: yields r) (ended r)
      end
  end.
(** kfoldpe.py 107-160 TimeAwareKFold.split, driven to its end *)
Definition s_kfold_split (c : kfold) (X : xarg) (y : yarg) (s : sgroups) : gen :=
  match (_ <- basecv_split X y (GArr (sg_pos s)) ;;
         let n := x_rows X in
         _ <- validate_split_settings n (kf_folds c) (kf_embargo c) (kf_purge c) ;;
         let indices := seq 0 n in
         if Nat.eqb (length (sg_val s)) (length indices) then
           bs <- mapM fold_bound (array_split indices (Z.to_nat (kf_folds c))) ;;
           bs <- s_modify_all s bs ;;
           let tests := map bound_range bs in
           Ok (indices, if kf_look c then tl tests else tests)
         else Raise AssertionError) with
  | Raise e => mkGen [] (Raised e)
  | Ok (indices, tests) =>
      let ep := match kf_freq c with
                | Some u => (to_timedelta (kf_embargo c) u, to_timedelta (kf_purge c) u)
                | None => (kf_embargo c, kf_purge c)
                end in
      s_loop indices s (kf_look c) (fst ep) (snd ep) tests
  end.

(** walk_forward.py 116-125 WalkForward.split up to the first evaluation of the loop condition, which reads [groups[-1]] *)
Definition s_wf_start (w : wforward) (X : xarg) (y : yarg) (s : sgroups) : res (wfst * Z) :=
  _ <- basecv_split X y (GArr (sg_pos s)) ;;
  let k := g_kind (sg_pos s) in
  ts <- at_label s 0 ;;
  a <- plus_delta k ts (wf_train w) ;;
  a <- plus_delta k a (neg_delta (wf_unit w)) ;;
  te <- at_label s (Z.of_nat (ss_left (sg_pos s) a)) ;;
  xs <- at_label s (Z.of_nat (ss_right (sg_pos s) a)) ;;
  b <- plus_delta k xs (wf_test w) ;;
  b <- plus_delta k b (neg_delta (wf_unit w)) ;;
  xe <- at_label s (Z.of_nat (ss_left (sg_pos s) b)) ;;
  l <- at_label s (-1) ;;
  Ok (mkWS ts te xs xe, l).
