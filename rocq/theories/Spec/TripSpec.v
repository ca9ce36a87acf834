(** Why a path of a file system leads nowhere. *)
From Coq Require Import String Ascii List Bool.
From Verif.Model Require Import GoStr GoPath Tar Squash.
From Verif.Spec Require Import PathSpec SquashSpec VfsFSSpec.
Import ListNotations.

(** The text of the link at [p] leads to [q], which may itself be a link. *)
Definition hops (fs : fsys) (p q : path) : Prop :=
  exists h c, fs p = Some (FFile h c) /\ th_type h = TypeSymlink /\
    walks fs (if is_abs (th_link h) then [] else removelast p) (clean_comps (th_link h)) q.
(** Links that lead to one another and nowhere else. *)
Definition ring (fs : fsys) (links : list path) : Prop := forall x, In x links -> exists y, In y links /\ hops fs x y.
(** [trips fs d names e]: walking the names from the directory [d] comes upon a
    missing name ([ENotExist]), something with names below it that is not a
    directory ([ENotDir]), or a link that [strays].
    [strays fs p e]: the link at [p] cannot be followed, because walking its text
    trips, because what it leads to strays, or because it is in a ring of links ([ELoop]). *)
Inductive trips (fs : fsys) : path -> list str -> err -> Prop :=
| trips_up d cs e : trips fs (removelast d) cs e -> trips fs d (dotdot :: cs) e
| trips_missing d m c cs : fs d = Some (FDir m) -> plain_comp c -> fs (d ++ [c]) = None -> trips fs d (c :: cs) ENotExist
| trips_file d m c cs q h b : fs d = Some (FDir m) -> plain_comp c -> cs <> [] -> ends fs (d ++ [c]) q -> fs q = Some (FFile h b) ->
    trips fs d (c :: cs) ENotDir
| trips_link d m c cs e : fs d = Some (FDir m) -> plain_comp c -> cs <> [] -> strays fs (d ++ [c]) e -> trips fs d (c :: cs) e
| trips_down d m c cs d' e : fs d = Some (FDir m) -> plain_comp c -> follows fs (d ++ [c]) d' -> cs <> [] ->
    trips fs d' cs e -> trips fs d (c :: cs) e
with strays (fs : fsys) : path -> err -> Prop :=
| strays_text p h c e : fs p = Some (FFile h c) -> th_type h = TypeSymlink ->
    trips fs (if is_abs (th_link h) then [] else removelast p) (clean_comps (th_link h)) e -> strays fs p e
| strays_on p q e : hops fs p q -> strays fs q e -> strays fs p e
| strays_ring p links : In p links -> ring fs links -> strays fs p ELoop.
(** Opening the path [p] comes to nothing, for the reason [e]. *)
Definition leads_nowhere (fs : fsys) (p : path) (e : err) : Prop :=
  trips fs [] p e \/ exists q, walks fs [] p q /\ strays fs q e.
