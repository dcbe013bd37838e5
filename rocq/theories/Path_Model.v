(** Model of quantfinlib/util/_fs_utils.py on POSIX paths (pathlib.PurePosixPath, which Path is there).  Windows paths are not modelled. *)
From Coq Require Import String Ascii List Bool.
From Verif Require Import Base.
Import ListNotations.
Open Scope string_scope.

(** pathlib keeps a root and the names after it; the root is empty, "/", or "//" for a string that begins with exactly two slashes *)
Inductive root := NoRoot | Slash | TwoSlashes.
Record path := mkPath { p_root : root; p_parts : list string }.

Definition is_slash (c : ascii) : bool := Ascii.eqb c "/"%char.
(** str.split("/") *)
Fixpoint split_slash (s : string) : list string :=
  match s with
  | EmptyString => [EmptyString]
  | String c s' =>
      if is_slash c then EmptyString :: split_slash s'
      else match split_slash s' with
           | [] => [String c EmptyString]
           | p :: ps => String c p :: ps
           end
  end.
(** posixpath.splitroot *)
Definition root_of (s : string) : root :=
  match s with
  | String a s1 =>
      if is_slash a then
        match s1 with
        | String b s2 =>
            if is_slash b then match s2 with String c _ => if is_slash c then Slash else TwoSlashes | EmptyString => TwoSlashes end
            else Slash
        | EmptyString => Slash
        end
      else NoRoot
  | EmptyString => NoRoot
  end.
(** pathlib drops empty names and single dots, and keeps ".." *)
Definition kept (p : string) : bool := negb (String.eqb p "") && negb (String.eqb p ".").
(** Path(s) *)
Definition to_path (s : string) : path := mkPath (root_of s) (filter kept (split_slash s)).
(** Path.parent: the path itself when there is no name left *)
Definition parent (p : path) : path := mkPath (p_root p) (removelast (p_parts p)).
(** p / q: a rooted q replaces p *)
Definition join (p q : path) : path :=
  match p_root q with
  | NoRoot => mkPath (p_root p) (p_parts p ++ p_parts q)
  | _ => q
  end.

(** the argument: None, a string or a Path *)
Inductive farg := FNone | FStr (s : string) | FPath (p : path).
(** _fs_utils.py 5-20 get_project_root; [file] is the module's __file__ *)
Definition get_project_root (file : string) (relative_filepath : farg) : path :=
  let root_path := parent (parent (parent (to_path file))) in
  match relative_filepath with
  | FNone => root_path
  | FStr s => join root_path (to_path s)
  | FPath p => join root_path p
  end.
