(** Slash-separated paths as lists of components. *)
From Coq Require Import String Ascii List Bool.
From Verif.Model Require Import GoStr GoPath.
Import ListNotations.

(** An ordinary file name: not empty, no slash, not "." or "..". *)
Definition plain_comp (c : str) : Prop := c <> [] /\ ~ In slash c /\ c <> dot /\ c <> dotdot.
Definition plain_path (l : list str) : Prop := Forall plain_comp l.

(** Components of a cleaned path: leading ".." only in relative paths. *)
Definition clean_list (rooted : bool) (l : list str) : Prop :=
  exists n ps, l = repeat dotdot n ++ ps /\ plain_path ps /\ (rooted = true -> n = 0).

(** The text of a rooted or relative path with the given components. *)
Definition path_text (rooted : bool) (l : list str) : str :=
  if rooted then $"/" ++ join $"/" l
  else match l with [] => dot | _ => join $"/" l end.
