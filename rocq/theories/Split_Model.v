(** Model of quantfinlib/train_test_split (_base.py, kfoldpe.py, walk_forward.py).

    Sample indices are [nat]; group values are [Z] (integers, or nanoseconds for timestamps).
    Numpy float / datetime64 group arrays are not modelled; pandas Series with other labels than 0..n-1 are in SerIx_Model.v (C119),
    integer types of fixed width in Word_Model.v (C120). *)
From Coq Require Import List ZArith Bool Arith Lia.
From Verif Require Import Base.
Import ListNotations.
Open Scope Z_scope.

(** The group containers accepted by BaseCV.split (_base.py 172): integer ndarray, DatetimeIndex,
    Series of integers, Series of timestamps (both with the default RangeIndex). *)
Inductive gkind := ArrInt | DtiTime | SerInt | SerTime.
Record groups := mkG { g_kind : gkind; g_val : list Z }.

Definition is_series (k : gkind) : bool := match k with SerInt | SerTime => true | _ => false end.
Definition is_time (k : gkind) : bool := match k with DtiTime | SerTime => true | _ => false end.

(** A period: python integer, or pd.Timedelta in nanoseconds. *)
Inductive delta := DInt (k : Z) | DTd (ns : Z).

(** Optional y argument / X argument / groups argument of split (_base.py 160-173). *)
Inductive xarg := XArr (n : nat) | XBad.
Inductive yarg := YNone | YArr | YBad.
Inductive garg := GNone | GArr (g : groups) | GBad.

(** [groups[i]] for a single position: IndexError for arrays and indices, KeyError for Series. *)
Definition getitem (g : groups) (i : nat) : res Z :=
  match nth_error (g_val g) i with
  | Some v => Ok v
  | None => Raise (if is_series (g_kind g) then KeyError else IndexError)
  end.

(** [groups[-1]]: the last element; a Series with RangeIndex has no label -1. *)
Definition get_last (g : groups) : res Z :=
  if is_series (g_kind g) then Raise KeyError
  else match rev (g_val g) with v :: _ => Ok v | [] => Raise IndexError end.

(** group value + period (Timestamp + Timedelta, or int + int; anything else is a TypeError). *)
Definition plus_delta (k : gkind) (v : Z) (d : delta) : res Z :=
  match d, is_time k with
  | DInt a, false => Ok (v + a)
  | DTd a, true => Ok (v + a)
  | _, _ => Raise TypeError
  end.

Definition neg_delta (d : delta) : delta := match d with DInt a => DInt (- a) | DTd a => DTd (- a) end.

(** [np.all(np.diff(groups) >= 0)] and [groups.is_monotonic_increasing]. *)
Fixpoint sortedb (l : list Z) : bool :=
  match l with
  | a :: ((b :: _) as t) => (a <=? b) && sortedb t
  | _ => true
  end.

(** _base.py 13-49 _validate_purge_embargo_inputs. *)
Definition validate_purge_embargo_inputs (g : groups) (d : delta) : res unit :=
  match d, g_kind g with
  | DInt a, ArrInt =>
      if a <? 0 then Raise ValueError
      else if sortedb (g_val g) then Ok tt else Raise ValueError
  | DTd a, (DtiTime | SerInt | SerTime) =>
      if a <? 0 then Raise ValueError
      else if sortedb (g_val g) then Ok tt else Raise ValueError
  | _, _ => Raise TypeError
  end.

Definition zmax_list (v : Z) (l : list Z) : Z := fold_left Z.max l v.
Definition zmin_list (v : Z) (l : list Z) : Z := fold_left Z.min l v.

(** [groups[test_index].max()]: numpy raises ValueError on an empty selection, pandas returns NaT/NaN ([None]). *)
Definition sel_max (g : groups) (ix : list nat) : res (option Z) :=
  vs <- mapM (getitem g) ix ;;
  match vs with
  | [] => match g_kind g with ArrInt => Raise ValueError | _ => Ok None end
  | v :: t => Ok (Some (zmax_list v t))
  end.

(** [groups[test_index].min()]. *)
Definition sel_min (g : groups) (ix : list nat) : res (option Z) :=
  vs <- mapM (getitem g) ix ;;
  match vs with
  | [] => match g_kind g with ArrInt => Raise ValueError | _ => Ok None end
  | v :: t => Ok (Some (zmin_list v t))
  end.

(** [NaT +/- Timedelta] is NaT; otherwise as [plus_delta]. *)
Definition plus_delta_o (k : gkind) (v : option Z) (d : delta) : res (option Z) :=
  match v with
  | Some x => y <- plus_delta k x d ;; Ok (Some y)
  | None => _ <- plus_delta k 0 d ;; Ok None
  end.

(** Comparisons with NaT are False. *)
Definition cmp_o (f : Z -> Z -> bool) (x : Z) (o : option Z) : bool :=
  match o with Some v => f x v | None => false end.

(** [indices[mask]] where mask is computed elementwise from the groups: boolean indexing requires equal lengths. *)
Definition mask_select (indices : list nat) (g : groups) (p : Z -> bool) : res (list nat) :=
  if Nat.eqb (length (g_val g)) (length indices)
  then Ok (map fst (filter (fun q => p (snd q)) (combine indices (g_val g))))
  else Raise IndexError.

(** [np.unique]: sorted without duplicates. *)
Fixpoint insert_uniq (a : nat) (l : list nat) : list nat :=
  match l with
  | [] => [a]
  | b :: t => if Nat.ltb a b then a :: l else if Nat.eqb a b then l else b :: insert_uniq a t
  end.
Definition usort (l : list nat) : list nat := fold_right insert_uniq [] l.

Definition memb (i : nat) (l : list nat) : bool := existsb (Nat.eqb i) l.

(** [np.setdiff1d(a, b)]: sorted unique elements of a that are not in b. *)
Definition setdiff1d (a b : list nat) : list nat := filter (fun i => negb (memb i b)) (usort a).

(** _base.py 52-90 _purge. *)
Definition purge (train test indices : list nat) (g : groups) (n_purge : delta) : res (list nat) :=
  _ <- validate_purge_embargo_inputs g n_purge ;;
  mx <- sel_max g test ;;
  hi <- plus_delta_o (g_kind g) mx n_purge ;;
  purged <- mask_select indices g (fun v => cmp_o Z.leb v hi && cmp_o Z.gtb v mx) ;;
  let train := setdiff1d train purged in
  match train with
  | [] => Raise ValueError
  | _ => Ok (setdiff1d train purged)
  end.

(** _base.py 93-131 _embargo. *)
Definition embargo (train test indices : list nat) (g : groups) (n_embargo : delta) : res (list nat) :=
  _ <- validate_purge_embargo_inputs g n_embargo ;;
  mn <- sel_min g test ;;
  lo <- plus_delta_o (g_kind g) mn (neg_delta n_embargo) ;;
  embargoed <- mask_select indices g (fun v => cmp_o Z.geb v lo && cmp_o Z.ltb v mn) ;;
  let train := setdiff1d train embargoed in
  match train with
  | [] => Raise ValueError
  | _ => Ok train
  end.

(** Constructor argument for a period: integer, Timedelta, or any other type. *)
Inductive parg := PDelta (d : delta) | POther.

(** _base.py 137-151 BaseCV.__init__. *)
Definition basecv_init (n_embargo n_purge : parg) : res (delta * delta) :=
  match n_embargo, n_purge with
  | POther, _ => Raise TypeError
  | PDelta _, POther => Raise TypeError
  | PDelta e, PDelta p =>
      if match e with DInt a => a <? 0 | _ => false end then Raise ValueError
      else if match p with DInt a => a <? 0 | _ => false end then Raise ValueError
      else if match e with DTd a => a <? 0 | _ => false end then Raise ValueError
      else if match p with DTd a => a <? 0 | _ => false end then Raise ValueError
      else Ok (e, p)
  end.

(** _base.py 160-177 BaseCV.split: argument checks. *)
Definition basecv_split (X : xarg) (y : yarg) (g : garg) : res unit :=
  match X with
  | XBad => Raise TypeError
  | XArr _ =>
      match y with
      | YBad => Raise TypeError
      | _ =>
          match g with
          | GBad => Raise TypeError
          | GNone => Ok tt
          | GArr gr => if sortedb (g_val gr) then Ok tt else Raise ValueError
          end
      end
  end.

Definition x_rows (X : xarg) : nat := match X with XArr n => n | XBad => O end.

(** [np.arange(n)] used as integer groups. *)
Definition arange_groups (n : nat) : groups := mkG ArrInt (map Z.of_nat (seq 0 n)).

(** What a driven generator produced: the yielded (train, test) pairs and how it ended. *)
Inductive ending := Done | Raised (e : exn) | Running.
Record gen := mkGen { yields : list (list nat * list nat); ended : ending }.

(* ------------------------------------------------------------------ *)
(** ** TimeAwareKFold *)

Record kfold := mkKF { kf_folds : Z; kf_embargo : delta; kf_purge : delta; kf_look : bool; kf_freq : option Z }.

(** n_folds argument: python integer or any other type. *)
Inductive iarg := IInt (k : Z) | IOther.

(** kfoldpe.py 73-90 TimeAwareKFold.__init__ (freq is its length in nanoseconds). *)
Definition kfold_init (n_folds : iarg) (n_embargo n_purge : parg) (look : bool) (freq : option Z) : res kfold :=
  ep <- basecv_init n_embargo n_purge ;;
  match n_folds with
  | IOther => Raise ValueError
  | IInt k => if k <? 2 then Raise ValueError else Ok (mkKF k (fst ep) (snd ep) look freq)
  end.

(** kfoldpe.py 92-105 get_n_splits. *)
Definition kfold_get_n_splits (c : kfold) : Z := if kf_look c then kf_folds c - 1 else kf_folds c.

(** kfoldpe.py 13-41 _validate_split_settings; Timedelta + int and Timedelta >= int are TypeErrors. *)
Definition validate_split_settings (n_samples : nat) (n_folds : Z) (n_embargo n_purge : delta) : res unit :=
  let n := Z.of_nat n_samples in
  if n <? n_folds then Raise ValueError
  else match n_embargo, n_purge with
       | DInt e, DInt p =>
           if p + e >=? n then Raise ValueError
           else let max_train_size := n - n / n_folds in
                if (p >? max_train_size) || (e >? max_train_size) || (e + p >? max_train_size)
                then Raise ValueError else Ok tt
       | _, _ => Raise TypeError
       end.

(** [pd.Timedelta(x, unit=freq)]. *)
Definition to_timedelta (d : delta) (unit : Z) : delta :=
  match d with DInt k => DTd (k * unit) | DTd a => DTd a end.

(** Cut a list into consecutive pieces of the given sizes. *)
Fixpoint chop {A} (sizes : list nat) (l : list A) : list (list A) :=
  match sizes with
  | [] => []
  | s :: ss => firstn s l :: chop ss (skipn s l)
  end.

(** [np.array_split(l, k)]: the first (n mod k) pieces have one element more. *)
Definition array_split {A} (l : list A) (k : nat) : list (list A) :=
  let n := length l in
  chop (repeat (S (n / k)) (n mod k) ++ repeat (n / k)%nat (k - n mod k)) l.

(** [[t[0], t[-1]]] of a fold (kfoldpe.py 145). *)
Definition fold_bound (t : list nat) : res (nat * nat) :=
  match t, rev t with
  | a :: _, b :: _ => Ok (a, b)
  | _, _ => Raise IndexError
  end.

(** [np.where(groups == v)[0]]. *)
Definition where_eq (g : groups) (v : Z) : list nat :=
  map fst (filter (fun q => snd q =? v) (combine (seq 0 (length (g_val g))) (g_val g))).

(** [groups[groups > v][0]]; on a Series the label 0 must survive the filter. *)
Definition next_group (g : groups) (v : Z) : res Z :=
  if is_series (g_kind g) then
    match g_val g with
    | v0 :: _ => if v0 >? v then Ok v0 else Raise KeyError
    | [] => Raise KeyError
    end
  else match filter (fun x => x >? v) (g_val g) with
       | w :: _ => Ok w
       | [] => Raise IndexError
       end.

(** kfoldpe.py 163-191 _modify_fold_bounds.  The in-place loop over folds only reads and writes the current and the
    next row, so it is written as a recursion carrying the current row. *)
Fixpoint modify_fold_bounds (g : groups) (cur : nat * nat) (rest : list (nat * nat)) : res (list (nat * nat)) :=
  match rest with
  | [] => Ok [cur]
  | nxt :: rest' =>
      lg <- getitem g (snd cur) ;;
      fg <- getitem g (fst nxt) ;;
      if lg =? fg then
        ng <- next_group g lg ;;
        e <- match rev (where_eq g lg) with i :: _ => Ok i | [] => Raise IndexError end ;;
        s <- match where_eq g ng with i :: _ => Ok i | [] => Raise IndexError end ;;
        tl <- modify_fold_bounds g (s, snd nxt) rest' ;;
        Ok ((fst cur, e) :: tl)
      else
        tl <- modify_fold_bounds g nxt rest' ;;
        Ok (cur :: tl)
  end.

Definition modify_fold_bounds_all (g : groups) (bs : list (nat * nat)) : res (list (nat * nat)) :=
  match bs with
  | [] => Ok []
  | b :: rest => modify_fold_bounds g b rest
  end.

(** [np.arange(bound[0], bound[1] + 1)]. *)
Definition bound_range (b : nat * nat) : list nat := seq (fst b) (S (snd b) - fst b).

(** kfoldpe.py 194-221 _get_train_index_per_split. *)
Definition get_train_index_per_split (indices test : list nat) (g : groups) (look : bool) : res (list nat) :=
  let train := setdiff1d indices test in
  if look then
    match test with
    | [] => Raise IndexError
    | t0 :: _ =>
        g0 <- getitem g t0 ;;
        later <- mask_select indices g (fun v => v >? g0) ;;
        Ok (setdiff1d train later)
    end
  else Ok train.

(** Body of the loop kfoldpe.py 150-160 for one test fold. *)
Definition kfold_train (indices test : list nat) (g : groups) (look : bool) (n_embargo n_purge : delta)
  : res (list nat) :=
  tr <- get_train_index_per_split indices test g look ;;
  tr <- purge tr test indices g n_purge ;;
  embargo tr test indices g n_embargo.

Fixpoint kfold_loop (indices : list nat) (g : groups) (look : bool) (n_embargo n_purge : delta)
  (tests : list (list nat)) : gen :=
  match tests with
  | [] => mkGen [] Done
  | t :: ts =>
      match kfold_train indices t g look n_embargo n_purge with
      | Raise e => mkGen [] (Raised e)
      | Ok tr =>
          let r := kfold_loop indices g look n_embargo n_purge ts in
          mkGen ((tr, t) :: yields r) (ended r)
      end
  end.

(** kfoldpe.py 129-149: everything before the loop; returns indices, groups, periods, test folds. *)
Definition kfold_prepare (c : kfold) (X : xarg) (y : yarg) (ga : garg)
  : res (list nat * groups * delta * delta * list (list nat)) :=
  _ <- basecv_split X y ga ;;
  let n := x_rows X in
  _ <- validate_split_settings n (kf_folds c) (kf_embargo c) (kf_purge c) ;;
  let ep := match ga, kf_freq c with
            | GArr _, Some u => (to_timedelta (kf_embargo c) u, to_timedelta (kf_purge c) u)
            | _, _ => (kf_embargo c, kf_purge c)
            end in
  let g := match ga with GArr g => g | _ => arange_groups n end in
  let indices := seq 0 n in
  if Nat.eqb (length (g_val g)) (length indices) then
    bs <- mapM fold_bound (array_split indices (Z.to_nat (kf_folds c))) ;;
    bs <- modify_fold_bounds_all g bs ;;
    let tests := map bound_range bs in
    Ok (indices, g, fst ep, snd ep, if kf_look c then tl tests else tests)
  else Raise AssertionError.

(** kfoldpe.py 107-160 TimeAwareKFold.split, driven to its end. *)
Definition kfold_split (c : kfold) (X : xarg) (y : yarg) (ga : garg) : gen :=
  match kfold_prepare c X y ga with
  | Raise e => mkGen [] (Raised e)
  | Ok (indices, g, e, p, tests) => kfold_loop indices g (kf_look c) e p tests
  end.

(* ------------------------------------------------------------------ *)
(** ** WalkForward *)

Inductive stype := Expanding | Rolling.
Record wforward := mkWF { wf_embargo : delta; wf_train : delta; wf_test : delta; wf_type : stype; wf_freq : option Z }.

(** Mutable fields of the splitter object: n_splits and _finalized_splits (walk_forward.py 61-62). *)
Record wfobj := mkWO { wo_n : Z; wo_fin : bool }.

(** split_type argument. *)
Inductive starg := SExpanding | SRolling | SOther.

(** walk_forward.py 45-66 WalkForward.__init__; the windows are integers (they are not validated by the code). *)
Definition wf_init (n_embargo n_purge : parg) (train_window test_window : Z) (st : starg) (freq : option Z)
  : res (wforward * wfobj) :=
  ep <- basecv_init n_embargo n_purge ;;
  match st with
  | SOther => Raise ValueError
  | _ =>
      let ty := match st with SRolling => Rolling | _ => Expanding end in
      match freq with
      | None => Ok (mkWF (fst ep) (DInt train_window) (DInt test_window) ty None, mkWO 0 false)
      | Some u => Ok (mkWF (to_timedelta (fst ep) u) (DTd (train_window * u)) (DTd (test_window * u)) ty (Some u),
                      mkWO 0 false)
      end
  end.

(** walk_forward.py 76-84 get_n_splits (the warning is not modelled). *)
Definition wf_get_n_splits (o : wfobj) : Z := if wo_fin o then wo_n o else 0.

(** [np.searchsorted(groups, v, side)] on sorted groups. *)
Definition ss_left (g : groups) (v : Z) : nat := length (filter (fun x => x <? v) (g_val g)).
Definition ss_right (g : groups) (v : Z) : nat := length (filter (fun x => x <=? v) (g_val g)).

(** Loop variables train_start_group, train_end_group, test_start_group, test_end_group. *)
Record wfst := mkWS { ws_ts : Z; ws_te : Z; ws_xs : Z; ws_xe : Z }.

(** walk_forward.py 113: time_unit. *)
Definition wf_unit (w : wforward) : delta := match wf_freq w with Some u => DTd u | None => DInt 1 end.

(** walk_forward.py 116-124: initial boundaries. *)
Definition wf_start (w : wforward) (g : groups) : res wfst :=
  ts <- getitem g 0 ;;
  a <- plus_delta (g_kind g) ts (wf_train w) ;;
  a <- plus_delta (g_kind g) a (neg_delta (wf_unit w)) ;;
  te <- getitem g (ss_left g a) ;;
  xs <- getitem g (ss_right g a) ;;
  b <- plus_delta (g_kind g) xs (wf_test w) ;;
  b <- plus_delta (g_kind g) b (neg_delta (wf_unit w)) ;;
  xe <- getitem g (ss_left g b) ;;
  Ok (mkWS ts te xs xe).

Definition delta_pos (d : delta) : bool := match d with DInt a => a >? 0 | DTd a => a >? 0 end.

(** walk_forward.py 126-137: the pair yielded by one iteration. *)
Definition wf_pair (w : wforward) (indices : list nat) (g : groups) (s : wfst) : res (list nat * list nat) :=
  tr <- mask_select indices g (fun v => (v >=? ws_ts s) && (v <=? ws_te s)) ;;
  te <- mask_select indices g (fun v => (v >=? ws_xs s) && (v <=? ws_xe s)) ;;
  if delta_pos (wf_embargo w) then
    tr <- embargo tr te indices g (wf_embargo w) ;; Ok (tr, te)
  else Ok (tr, te).

(** walk_forward.py 144-151: move the boundaries. *)
Definition wf_advance (w : wforward) (g : groups) (s : wfst) : res wfst :=
  ts <- match wf_type w with
        | Rolling => plus_delta (g_kind g) (ws_ts s) (wf_test w)
        | Expanding => Ok (ws_ts s)
        end ;;
  a <- plus_delta (g_kind g) (ws_te s) (wf_test w) ;;
  te <- getitem g (ss_left g a) ;;
  b <- plus_delta (g_kind g) (ws_xs s) (wf_test w) ;;
  xs <- getitem g (ss_left g b) ;;
  c <- plus_delta (g_kind g) (ws_xe s) (wf_test w) ;;
  l <- get_last g ;;
  xe <- getitem g (ss_left g (Z.min c l)) ;;
  Ok (mkWS ts te xs xe).

(** walk_forward.py 125-151: the loop, driven by a consumer that resumes it after each of the first [fuel] pairs;
    [Running] means that the generator then offered a further pair and was abandoned there.
    n_splits is incremented when the generator is resumed after a yield. *)
Fixpoint wf_loop (w : wforward) (indices : list nat) (g : groups) (fuel : nat) (s : wfst) (o : wfobj)
  : gen * wfobj :=
  match get_last g with
  | Raise e => (mkGen [] (Raised e), o)
  | Ok l =>
      if ws_te s <? l then
        match wf_pair w indices g s with
        | Raise e => (mkGen [] (Raised e), o)
        | Ok pr =>
            match fuel with
            | O => (mkGen [] Running, o)
            | S fuel' =>
                let o1 := mkWO (wo_n o + 1) (wo_fin o) in
                if ws_xe s >=? l then (mkGen [pr] Done, mkWO (wo_n o1) true)
                else match wf_advance w g s with
                     | Raise e => (mkGen [pr] (Raised e), o1)
                     | Ok s' =>
                         let r := wf_loop w indices g fuel' s' o1 in
                         (mkGen (pr :: yields (fst r)) (ended (fst r)), snd r)
                     end
            end
        end
      else (mkGen [] Done, o)
  end.

(** walk_forward.py 86-151 WalkForward.split on an object in state [o]: pairs yielded, ending, new object state. *)
Definition wf_split (w : wforward) (fuel : nat) (X : xarg) (y : yarg) (ga : garg) (o : wfobj) : gen * wfobj :=
  match basecv_split X y ga with
  | Raise e => (mkGen [] (Raised e), o)
  | Ok _ =>
      let n := x_rows X in
      let g := match ga with GArr g => g | _ => arange_groups n end in
      match wf_start w g with
      | Raise e => (mkGen [] (Raised e), o)
      | Ok s => wf_loop w (seq 0 n) g fuel s o
      end
  end.
