(** Why squashing fails: links that lead to one another. *)
From Coq Require Import String Ascii List Bool.
From Verif.Model Require Import GoStr GoPath Tar Squash.
From Verif.Spec Require Import PathSpec SquashSpec.
Import ListNotations.

(** The text of the link at [p] leads to [q], which may itself be a link. *)
Definition turns (fs : fsys) (p q : path) : Prop :=
  exists h c, fs p = Some (FFile h c) /\ th_type h = TypeSymlink /\ clean (th_link h) <> $"/" /\
    reaches fs (if is_abs (th_link h) then [] else removelast p) (clean_comps (th_link h)) q.
(** Links that lead to one another and nowhere else. *)
Definition circle (fs : fsys) (links : list path) : Prop := forall x, In x links -> exists y, In y links /\ turns fs x y.
(** [snags fs d names]: going from the directory [d] along the names comes, before the
    last name, upon a link that [spins].  [spins fs p]: the link at [p] is in a circle of
    links, leads to a link that spins, or its text snags. *)
Inductive snags (fs : fsys) : path -> list str -> Prop :=
| snags_up d cs : snags fs (removelast d) cs -> snags fs d (dotdot :: cs)
| snags_link d c cs : is_dir_at fs d -> plain_comp c -> cs <> [] -> spins fs (d ++ [c]) -> snags fs d (c :: cs)
| snags_down d c cs d' : is_dir_at fs d -> plain_comp c -> leads fs (d ++ [c]) d' -> cs <> [] -> snags fs d' cs -> snags fs d (c :: cs)
with spins (fs : fsys) : path -> Prop :=
| spins_text p h c : fs p = Some (FFile h c) -> th_type h = TypeSymlink -> clean (th_link h) <> $"/" ->
    snags fs (if is_abs (th_link h) then [] else removelast p) (clean_comps (th_link h)) -> spins fs p
| spins_on p q : turns fs p q -> spins fs q -> spins fs p
| spins_circle p links : In p links -> circle fs links -> spins fs p.
(** Following the directories of the path of [e] comes upon such a link. *)
Definition caught (fs : fsys) (e : entry) : Prop :=
  exists a k, entry_path e = a ++ [k] /\ (snags fs [] a \/ exists q, reaches fs [] a q /\ spins fs q).
(** [es'] are the entries [es], each moved to where its path leads. *)
Definition settled_at (es es' : list entry) : Prop :=
  all_at_target empty_root es es' /\ Forall good_entry es' /\ history no_link_above es'.
(** Some entry is caught in what the entries before it have unpacked. *)
Definition some_caught (layers : list (list entry)) : Prop :=
  exists es e rest es', all_entries layers = es ++ e :: rest /\ settled_at es es' /\ caught (unpacked es') e.
(** Every entry has a place to which its path leads. *)
Definition all_settled (layers : list (list entry)) : Prop := exists es', settled_at (all_entries layers) es'.
