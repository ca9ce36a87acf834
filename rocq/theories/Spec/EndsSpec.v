(** Stacks whose links lead directly to their destinations. *)
From Coq Require Import String Ascii List Bool.
From Verif.Model Require Import GoStr GoPath Tar.
From Verif.Spec Require Import PathSpec SquashSpec.
Import ListNotations.

(** From the directory [d] along the names, without looking at any file system;
    above the root directory is the root directory. *)
Fixpoint along (d : path) (names : list str) : path :=
  match names with
  | [] => d
  | x :: r => along (if str_eqb x dotdot then removelast d else d ++ [x]) r
  end.
(** The path that a link names. *)
Definition destination (e : entry) : path :=
  along (if is_abs (th_link (fst e)) then [] else removelast (entry_path e)) (clean_comps (th_link (fst e))).
(** No link names a path at or below a link, and no link is put below a link. *)
Definition direct_links (es : list entry) : Prop := forall e e', In e es -> In e' es -> is_link e = true -> is_link e' = true ->
  at_or_below (entry_path e) (destination e') = false /\ below (entry_path e) (entry_path e') = false.
