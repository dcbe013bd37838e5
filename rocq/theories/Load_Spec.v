(** What an import needs, said without the order of execution. *)
From Coq Require Import List.
From Verif Require Import Base Load_Model.
Import ListNotations.

(** a file needs itself, what its package needs, and what the files it imports need *)
Inductive needs : file -> file -> Prop :=
| self : forall m, needs m m
| of_package : forall m p x, parent m = Some p -> needs p x -> needs m x
| of_import : forall m y x, In y (imports m) -> needs y x -> needs m x.
