(** Vocabulary for property C125. *)
From Coq Require Import String Ascii List Bool.
Import ListNotations.
Open Scope string_scope.

(** a file name: not empty, not a single dot, no slash in it (".." is one) *)
Fixpoint no_slash (s : string) : Prop := match s with EmptyString => True | String c s' => c <> "/"%char /\ no_slash s' end.
Definition name (s : string) : Prop := s <> "" /\ s <> "." /\ no_slash s.
(** written with slashes between the names *)
Definition written (names : list string) : string := String.concat "/" names.
(** the pieces that are neither empty nor a single dot *)
Definition real_names (pieces : list string) : list string := filter (fun p => negb (String.eqb p "") && negb (String.eqb p ".")) pieces.
(** where a chain of names leads, starting from the directory [d], when there are no symbolic links: ".." goes up, and stays at the top *)
Fixpoint walk (d : list string) (names : list string) : list string :=
  match names with
  | [] => d
  | n :: ns => walk (if String.eqb n ".." then removelast d else d ++ [n]) ns
  end.
