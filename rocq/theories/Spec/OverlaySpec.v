(** What an image shows once a layer is laid over it. *)
From Coq Require Import String Ascii List Bool ZArith.
From Coq Require Import Permutation.
From Verif.Model Require Import GoStr GoPath Tar Squash VfsFS.
From Verif.Spec Require Import PathSpec SquashSpec VfsFSSpec LookPathSpec.
Import ListNotations.

(** A layer that describes part of a directory tree: relative paths without
    marker names, no path twice, and nothing below what is not a directory. *)
Definition tree_layer (l : list entry) : Prop :=
  Forall (fun e => is_abs (th_name (fst e)) = false /\ real_path (entry_path e)) l /\
  NoDup (map entry_path l) /\
  (forall e e', In e l -> In e' l -> below (entry_path e) (entry_path e') = true -> is_dir e = true).

(** What is at [p] once the layer is laid over [fs]. *)
Inductive laid_over (l : list entry) (fs : fsys) (p : path) : option fnode -> Prop :=
(** an entry of the layer; *)
| lo_entry e : In e l -> entry_path e = p -> laid_over l fs p (Some (node_of e))
(** nothing below an entry that is not a directory; *)
| lo_gone e : ~ In p (map entry_path l) -> In e l -> is_dir e = false -> below (entry_path e) p = true ->
    laid_over l fs p None
(** a directory, the old one if there was one, above an entry; *)
| lo_above e : ~ In p (map entry_path l) -> In e l -> below p (entry_path e) = true ->
    laid_over l fs p (Some (FDir (match fs p with Some (FDir m) => m | _ => None end)))
(** everywhere else what was there before. *)
| lo_rest : ~ In p (map entry_path l) -> (forall e, In e l -> below (entry_path e) p = true -> is_dir e = true) ->
    (forall e, In e l -> below p (entry_path e) = false) -> laid_over l fs p (fs p).

(** No entry of the layer at the path or below it, and none above it that is not a directory. *)
Definition untouched (l : list entry) (p : path) : Prop :=
  ~ In p (map entry_path l) /\ (forall e, In e l -> below (entry_path e) p = true -> is_dir e = true) /\
  (forall e, In e l -> below p (entry_path e) = false).
(** No entry of the layer is written through a symbolic link of [fs]: an earlier
    entry of the layer takes the place of each link above it. *)
Definition past_links (fs : fsys) (l : list entry) : Prop :=
  forall l1 e l2 q, l = l1 ++ e :: l2 -> below q (entry_path e) = true -> is_symlink_at fs q -> In q (map entry_path l1).

(** Load and Open give a file at this path, and whoever reads it gets this content. *)
Definition reads_back (layers : list (list entry)) (name content : str) : Prop :=
  forall sort order utf8, (forall l, Permutation (order l) l) -> utf8 name = true ->
  exists N t f, (forall n, N <= n -> load_layers n false layers = Ret t /\ open_file utf8 n order t name = Ret f) /\
    forall programs c, reachable sort f programs c -> reads_file content false (c_log c).

(** For the examples: an image, and files to be laid over it. *)
Definition a_base : list (list entry) := [[a_dir $"usr/"; a_dir $"usr/bin/"; a_file $"usr/bin/sh" $"shell"; a_symlink $"bin" $"usr/bin"; a_file $"etc" $"old"]].
Definition a_layer : list entry := [a_dir $"etc"; a_file $"etc/conf" $"new"; a_program TypeReg $"usr/bin/run"; a_file $"usr/share/doc" $"text"].
