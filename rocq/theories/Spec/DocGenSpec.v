(** The commands that have a page. *)
From Coq Require Import String Ascii List Bool.
From Verif.Model Require Import GoStr DocGen.
Import ListNotations.

(** A command that users see: neither hidden nor deprecated, and it or a visible command below it can be run. *)
Inductive visible : cmd -> Prop :=
| visible_run n subs : visible (Cmd n false false true subs)
| visible_sub n r subs s : In s subs -> visible s -> visible (Cmd n false false r subs).
(** [documented root path c]: [c] is the root or reached from it through visible commands; [path] are the names on the way. *)
Inductive documented (root : cmd) : list str -> cmd -> Prop :=
| doc_root : documented root [cmd_name root] root
| doc_sub path n hidden deprecated runnable subs s : documented root path (Cmd n hidden deprecated runnable subs) -> In s subs -> visible s ->
    documented root (path ++ [cmd_name s]) s.
(** No name of a command has one of the bytes in it. *)
Inductive names_avoid (sep : ascii) : cmd -> Prop :=
| avoid n hidden deprecated runnable subs : ~ In " "%char n -> ~ In sep n -> Forall (names_avoid sep) subs ->
    names_avoid sep (Cmd n hidden deprecated runnable subs).
(** The entries of a directory, by name. *)
Fixpoint entry_named (l : list (str * thing)) (x : str) : option thing :=
  match l with
  | [] => None
  | (n, t) :: l => if str_eqb n x then Some t else entry_named l x
  end.
(** [s] begins with [p]. *)
Definition starts (p s : str) : Prop := exists rest, s = p ++ rest.
