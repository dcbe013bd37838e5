(** Model of WalkForward (quantfinlib/train_test_split/walk_forward.py) for groups given as a numpy array of fixed-width integers: sums of a
    group and a window wrap around (numpy 2; the RuntimeWarning is not modelled), a window that does not fit the type is an OverflowError.
    np.searchsorted is modelled for sorted groups, as in Split_Model.v. *)
From Coq Require Import List ZArith Bool Arith.
From Verif Require Import Base Split_Model Word_Model.
Import ListNotations.
Open Scope Z_scope.

(** numpy scalar + Python integer, numpy scalar - Python integer; a Timedelta cannot be added to an integer *)
Definition w_plus (t : word) (x : Z) (d : delta) : res Z :=
  match d with DInt a => if fitsb t a then Ok (wrap t (x + a)) else Raise OverflowError | DTd _ => Raise TypeError end.
Definition w_minus (t : word) (x : Z) (d : delta) : res Z :=
  match d with DInt a => if fitsb t a then Ok (wrap t (x - a)) else Raise OverflowError | DTd _ => Raise TypeError end.

(** walk_forward.py 113-124: initial boundaries *)
Definition ww_start (t : word) (w : wforward) (v : list Z) : res wfst :=
  let g := mkG ArrInt v in
  ts <- getitem g 0 ;;
  a <- w_plus t ts (wf_train w) ;;
  a <- w_minus t a (wf_unit w) ;;
  te <- getitem g (ss_left g a) ;;
  xs <- getitem g (ss_right g a) ;;
  b <- w_plus t xs (wf_test w) ;;
  b <- w_minus t b (wf_unit w) ;;
  xe <- getitem g (ss_left g b) ;;
  Ok (mkWS ts te xs xe).

(** walk_forward.py 126-137: the pair yielded by one iteration *)
Definition ww_pair (t : word) (w : wforward) (indices : list nat) (v : list Z) (s : wfst) : res (list nat * list nat) :=
  let g := mkG ArrInt v in
  tr <- mask_select indices g (fun x => (x >=? ws_ts s) && (x <=? ws_te s)) ;;
  te <- mask_select indices g (fun x => (x >=? ws_xs s) && (x <=? ws_xe s)) ;;
  if delta_pos (wf_embargo w) then
    tr <- w_embargo t tr te indices v (wf_embargo w) ;; Ok (tr, te)
  else Ok (tr, te).

(** walk_forward.py 144-151: move the boundaries *)
Definition ww_advance (t : word) (w : wforward) (v : list Z) (s : wfst) : res wfst :=
  let g := mkG ArrInt v in
  ts <- match wf_type w with Rolling => w_plus t (ws_ts s) (wf_test w) | Expanding => Ok (ws_ts s) end ;;
  a <- w_plus t (ws_te s) (wf_test w) ;;
  te <- getitem g (ss_left g a) ;;
  b <- w_plus t (ws_xs s) (wf_test w) ;;
  xs <- getitem g (ss_left g b) ;;
  c <- w_plus t (ws_xe s) (wf_test w) ;;
  l <- get_last g ;;
  xe <- getitem g (ss_left g (Z.min c l)) ;;
  Ok (mkWS ts te xs xe).

(** walk_forward.py 125-151: the loop, resumed after each of the first [fuel] pairs as in Split_Model.v; [Running]: a further pair was offered *)
Fixpoint ww_loop (t : word) (w : wforward) (indices : list nat) (v : list Z) (fuel : nat) (s : wfst) (o : wfobj) : gen * wfobj :=
  match get_last (mkG ArrInt v) with
  | Raise e => (mkGen [] (Raised e), o)
  | Ok l =>
      if ws_te s <? l then
        match ww_pair t w indices v s with
        | Raise e => (mkGen [] (Raised e), o)
        | Ok pr =>
            match fuel with
            | O => (mkGen [] Running, o)
            | S fuel' =>
                let o1 := mkWO (wo_n o + 1) (wo_fin o) in
                if ws_xe s >=? l then (mkGen [pr] Done, mkWO (wo_n o1) true)
                else match ww_advance t w v s with
                     | Raise e => (mkGen [pr] (Raised e), o1)
                     | Ok s' => let r := ww_loop t w indices v fuel' s' o1 in (mkGen (pr :: yields (fst r)) (ended (fst r)), snd r)
                     end
            end
        end
      else (mkGen [] Done, o)
  end.

(** walk_forward.py 86-151 WalkForward.split for an array X of n rows, y an array, a Series or None, and an integer array of groups *)
Definition ww_split (t : word) (w : wforward) (fuel : nat) (n : nat) (v : list Z) (o : wfobj) : gen * wfobj :=
  match w_basecv t v with
  | Raise e => (mkGen [] (Raised e), o)
  | Ok _ =>
      match ww_start t w v with
      | Raise e => (mkGen [] (Raised e), o)
      | Ok s => ww_loop t w (seq 0 n) v fuel s o
      end
  end.
