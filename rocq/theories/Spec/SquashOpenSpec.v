(** What Open gives in an image, whatever the depth of recursion. *)
From Coq Require Import List.
From Verif.Model Require Import GoStr Tar Squash VfsFS.
From Verif.Spec Require Import PathSpec SquashSpec VfsFSSpec.
Import ListNotations.

Definition opens (utf8 : str -> bool) (layers : list (list entry)) (p : path) (r : run (path * path)) : Prop :=
  exists N t, forall n, N <= n -> load_layers n false layers = Ret t /\ open utf8 n t (open_name p) = r.
(** The same result of Stat for a file opened as [q], apart from the directory part of the name *)
Definition same_stat (q : path) (a b : stat_result) : Prop :=
  match a, b with
  | StatOk h, StatOk h' => anon h = anon h' /\ (q <> [] -> fi_name h = last q [] /\ fi_name h' = last q [])
  | StatErr x, StatErr x' => x = x'
  | _, _ => False
  end.
(** No name of a whiteout in it *)
Definition unmarked (p : path) : Prop := Forall (fun x => marker_name x = false) p.
(** The same result of Stat apart from the name *)
Definition alike_stat (a b : stat_result) : Prop :=
  match a, b with
  | StatOk h, StatOk h' => anon h = anon h'
  | StatErr x, StatErr x' => x = x'
  | StatPanic, StatPanic => True
  | _, _ => False
  end.
