(** Property C125: where get_project_root points to. *)
From Coq Require Import String Ascii List Bool Arith Lia.
From Verif Require Import Base Path_Model Path_Spec Util_Model.
Import ListNotations.
Open Scope string_scope.

Lemma is_slash_spec : forall c, is_slash c = true <-> c = "/"%char.
Proof. intros c. unfold is_slash. apply Ascii.eqb_eq. Qed.
Lemma split_name : forall a, no_slash a -> split_slash a = [a].
Proof.
  induction a as [|c a IH]; intros H; [reflexivity|]. destruct H as [Hc Ha]. cbn [split_slash]. destruct (is_slash c) eqn:E; [apply is_slash_spec in E; contradiction|]. rewrite (IH Ha). reflexivity.
Qed.
Lemma split_cons : forall a s, no_slash a -> split_slash (a ++ "/" ++ s) = a :: split_slash s.
Proof.
  induction a as [|c a IH]; intros s H; [reflexivity|]. destruct H as [Hc Ha]. change (String c a ++ "/" ++ s) with (String c (a ++ "/" ++ s)). cbn [split_slash]. destruct (is_slash c) eqn:E; [apply is_slash_spec in E; contradiction|]. rewrite (IH s Ha). reflexivity.
Qed.
Lemma concat_cons : forall a b l, written (a :: b :: l) = a ++ "/" ++ written (b :: l).
Proof. reflexivity. Qed.
Lemma split_written : forall names, names <> [] -> Forall no_slash names -> split_slash (written names) = names.
Proof.
  induction names as [|a l IH]; intros Hn H; [congruence|]. inversion H as [|? ? Ha Hl]; subst. destruct l as [|b l]; [apply split_name; exact Ha|].
  rewrite concat_cons, split_cons by exact Ha. rewrite IH by (discriminate || exact Hl). reflexivity.
Qed.
Lemma name_kept : forall a, name a -> kept a = true.
Proof. intros a (H1 & H2 & _). unfold kept. rewrite (proj2 (String.eqb_neq _ _) H1), (proj2 (String.eqb_neq _ _) H2). reflexivity. Qed.
Lemma filter_names : forall l, Forall name l -> filter kept l = l.
Proof. intros l H. induction H as [|a l Ha Hl IH]; [reflexivity|]. cbn [filter]. rewrite (name_kept a Ha), IH. reflexivity. Qed.
Lemma root_written : forall names, Forall name names -> root_of (written names) = NoRoot.
Proof.
  intros [|a l] H; [reflexivity|]. inversion H as [|? ? (H1 & _ & Ha) _]; subst. destruct a as [|c a]; [congruence|]. destruct Ha as [Hc _].
  assert (E : is_slash c = false) by (destruct (is_slash c) eqn:E; [apply is_slash_spec in E; contradiction|reflexivity]). destruct l; cbn [written String.concat append root_of]; rewrite E; reflexivity.
Qed.
Lemma parse_relative : forall names, Forall name names -> to_path (written names) = mkPath NoRoot names.
Proof.
  intros names H. unfold to_path. rewrite root_written by exact H. f_equal. destruct names as [|a l]; [reflexivity|]. rewrite split_written; [apply filter_names; exact H|discriminate|]. apply Forall_forall. intros x Hx. rewrite Forall_forall in H. apply (H x Hx).
Qed.
Lemma parse_absolute : forall names, names <> [] -> Forall name names -> to_path ("/" ++ written names) = mkPath Slash names.
Proof.
  intros names Hn H. unfold to_path. change ("/" ++ written names) with ("" ++ "/" ++ written names) at 2. rewrite split_cons by exact I. rewrite split_written; [|exact Hn|apply Forall_forall; intros x Hx; rewrite Forall_forall in H; apply (H x Hx)]. cbn [filter]. change (kept "") with false. cbn match. rewrite filter_names by exact H. f_equal.
  destruct names as [|a l]; [congruence|]. inversion H as [|? ? (H1 & _ & Ha) _]; subst. destruct a as [|c a]; [congruence|]. destruct Ha as [Hc _]. assert (E : is_slash c = false) by (destruct (is_slash c) eqn:E; [apply is_slash_spec in E; contradiction|reflexivity]).
  destruct l; cbn [written String.concat append root_of]; change (is_slash "/"%char) with true; cbn match; rewrite E; reflexivity.
Qed.

(** the module is imported from the directory with the names [base] *)
Definition file_in (base : list string) : string := "/" ++ written (base ++ ["quantfinlib"; "util"; "_fs_utils.py"]).
Lemma root_dir : forall base, Forall name base -> parent (parent (parent (to_path (file_in base)))) = mkPath Slash base.
Proof.
  intros base H. unfold file_in. rewrite parse_absolute.
  - unfold parent. cbn [p_root p_parts]. f_equal. change ["quantfinlib"; "util"; "_fs_utils.py"] with (["quantfinlib"] ++ ["util"] ++ ["_fs_utils.py"])%list. rewrite !app_assoc. rewrite !removelast_last. reflexivity.
  - destruct base; discriminate.
  - apply Forall_app. split; [exact H|]. repeat constructor; cbn; try discriminate; repeat split; discriminate.
Qed.

(** The directory that holds the package, and below it the names of the argument in order; None and the empty string give the directory itself;
    a string and the Path of it give the same. *)
Theorem C125_below : forall base names, Forall name base -> Forall name names ->
  get_project_root (file_in base) FNone = mkPath Slash base
  /\ get_project_root (file_in base) (FStr "") = mkPath Slash base
  /\ get_project_root (file_in base) (FStr (written names)) = mkPath Slash (base ++ names)
  /\ get_project_root (file_in base) (FPath (to_path (written names))) = mkPath Slash (base ++ names).
Proof.
  intros base names Hb Hn. unfold get_project_root. cbv zeta. rewrite root_dir by exact Hb. rewrite parse_relative by exact Hn. split; [reflexivity|]. split; [cbn; rewrite app_nil_r; reflexivity|]. split; reflexivity.
Qed.
Print Assumptions C125_below.

(** The same place in steps: joining further names to the result is asking for the longer path. *)
Theorem C125_steps : forall base a b, Forall name base -> Forall name a -> Forall name b ->
  join (get_project_root (file_in base) (FStr (written a))) (to_path (written b)) = get_project_root (file_in base) (FStr (written (a ++ b))).
Proof.
  intros base a b Hb Ha Hb'. destruct (C125_below base a Hb Ha) as (_ & _ & -> & _). destruct (C125_below base (a ++ b) Hb (proj2 (Forall_app _ _ _) (conj Ha Hb'))) as (_ & _ & -> & _). rewrite parse_relative by exact Hb'. cbn. rewrite app_assoc. reflexivity.
Qed.
Print Assumptions C125_steps.

(** An argument that begins with a slash is not looked for below the directory: it is the result, whatever the directory. *)
Theorem C125_absolute : forall file s, get_project_root file (FStr ("/" ++ s)) = to_path ("/" ++ s).
Proof.
  intros file s. unfold get_project_root, join. cbv zeta. destruct (p_root (to_path ("/" ++ s))) eqn:E; [|reflexivity|reflexivity]. exfalso. revert E. cbn [to_path p_root append root_of]. change (is_slash "/"%char) with true. cbn match.
  destruct s as [|b s]; [discriminate|]. destruct (is_slash b); [|discriminate]. destruct s as [|c s]; [discriminate|]. destruct (is_slash c); discriminate.
Qed.
Print Assumptions C125_absolute.

(** Doubled and trailing slashes and single dots make no difference. *)
Theorem C125_redundant : forall base pieces, Forall name base -> Forall no_slash pieces -> hd "" pieces <> "" ->
  get_project_root (file_in base) (FStr (written pieces)) = mkPath Slash (base ++ real_names pieces).
Proof.
  intros base pieces Hb Hp Hh. unfold get_project_root. cbv zeta. rewrite root_dir by exact Hb. unfold join, to_path. cbn [p_root p_parts].
  destruct pieces as [|a l]; [contradiction Hh; reflexivity|]. rewrite split_written by (discriminate || exact Hp). cbn [hd] in Hh. inversion Hp as [|? ? Ha Hl]; subst.
  assert (E : root_of (written (a :: l)) = NoRoot).
  { destruct a as [|c a]; [congruence|]. destruct Ha as [Hc _]. assert (E : is_slash c = false) by (destruct (is_slash c) eqn:E; [apply is_slash_spec in E; contradiction|reflexivity]). destruct l; cbn [written String.concat append root_of]; rewrite E; reflexivity. }
  rewrite E. reflexivity.
Qed.
Print Assumptions C125_redundant.

Lemma walk_app : forall names d, Forall (fun n => n <> "..") names -> walk d names = (d ++ names)%list.
Proof.
  induction names as [|n ns IH]; intros d H; [symmetry; apply app_nil_r|]. inversion H as [|? ? Hn Hs]; subst. cbn [walk]. rewrite (proj2 (String.eqb_neq _ _) Hn), IH by exact Hs. rewrite <- app_assoc. reflexivity.
Qed.
(** Without ".." the file is below the directory.  With it the names are kept as given, and the file may be anywhere: any directory can be left. *)
Theorem C125_inside : forall base names, Forall name base -> Forall name names -> Forall (fun n => n <> "..") (base ++ names) ->
  walk [] (p_parts (get_project_root (file_in base) (FStr (written names)))) = (base ++ names)%list.
Proof. intros base names Hb Hn H. destruct (C125_below base names Hb Hn) as (_ & _ & -> & _). cbn [p_parts]. rewrite walk_app by exact H. reflexivity. Qed.
Print Assumptions C125_inside.
Theorem C125_inside_refuted : forall base, Forall name base -> Forall (fun n => n <> "..") base -> forall target, Forall name target -> Forall (fun n => n <> "..") target ->
  exists names, Forall name names /\ walk [] (p_parts (get_project_root (file_in base) (FStr (written names)))) = target.
Proof.
  intros base Hb Hd target Ht Htd. exists (repeat ".." (length base) ++ target)%list. assert (N : Forall name (repeat ".." (length base) ++ target)).
  { apply Forall_app. split; [|exact Ht]. apply Forall_forall. intros x Hx. apply repeat_spec in Hx. subst x. repeat split; discriminate. }
  split; [exact N|]. destruct (C125_below base _ Hb N) as (_ & _ & -> & _). cbn [p_parts].
  assert (W : forall l d, walk d l = fold_left (fun d n => if String.eqb n ".." then removelast d else (d ++ [n])%list) l d) by (induction l as [|n l IH]; intros d; [reflexivity|]; cbn [walk fold_left]; apply IH).
  assert (Up : forall k d, length d = k -> walk d (repeat ".." k ++ target) = target).
  { induction k as [|k IH]; intros d Hl; [destruct d; [|discriminate]; cbn [repeat app]; apply (walk_app target []); exact Htd|]. cbn [repeat app walk]. change (String.eqb ".." "..") with true. cbn match. apply IH. rewrite removelast_firstn_len, firstn_length. lia. }
  rewrite W, fold_left_app, <- (W base), (walk_app base []) by exact Hd. cbn [app]. rewrite <- W. apply Up. reflexivity.
Qed.
Print Assumptions C125_inside_refuted.

(** The three data sets are three different files in quantfinlib/datasets/resources. *)
Theorem C125_datasets : forall base, Forall name base ->
  let at_name n := mkPath Slash (base ++ ["quantfinlib"; "datasets"; "resources"; n]) in
  get_project_root (file_in base) (FStr vix_path) = at_name "vix_ohlc.csv.gz"
  /\ get_project_root (file_in base) (FStr multi_index_path) = at_name "multi_index_close.csv.gz"
  /\ get_project_root (file_in base) (FStr treasury_path) = at_name "daily_treasury_rates.csv.gz".
Proof.
  intros base Hb. cbv zeta. unfold get_project_root. cbv zeta. rewrite root_dir by exact Hb. repeat split.
Qed.
Print Assumptions C125_datasets.

Example C125_example : get_project_root "/home/me/lib/quantfinlib/util/_fs_utils.py" (FStr "./data//prices.csv/") = mkPath Slash ["home"; "me"; "lib"; "data"; "prices.csv"]
  /\ get_project_root "/home/me/lib/quantfinlib/util/_fs_utils.py" (FStr "/tmp/x") = mkPath Slash ["tmp"; "x"]
  /\ walk [] (p_parts (get_project_root "/home/me/lib/quantfinlib/util/_fs_utils.py" (FStr "../x"))) = ["home"; "me"; "x"]
  /\ "/home/me/lib/quantfinlib/util/_fs_utils.py" = file_in ["home"; "me"; "lib"] /\ Forall name ["home"; "me"; "lib"].
Proof. split; [reflexivity|]. split; [reflexivity|]. split; [reflexivity|]. split; [reflexivity|]. repeat constructor; cbn; try discriminate; repeat split; discriminate. Qed.
