(** Programs in an unpacked image. *)
From Coq Require Import String Ascii List Bool ZArith.
From Verif.Model Require Import GoStr GoPath Tar LookPath.
From Verif.Spec Require Import PathSpec SquashSpec VfsFSSpec TripSpec.
Import ListNotations.

(** Not a directory by the type bits of its mode either, and one of the three execute bits is set *)
Definition executable (h : header) : Prop :=
  Z.land (th_mode h) (2 ^ 32 - 2 ^ 12) <> 16384%Z /\ (Z.testbit (th_mode h) 0 = true \/ Z.testbit (th_mode h) 3 = true \/ Z.testbit (th_mode h) 6 = true).
(** The path leads, perhaps through symbolic links, to something executable that is not a directory. *)
Definition runs (fs : fsys) (p : path) : Prop :=
  exists q e h c, walks fs [] p q /\ ends fs q e /\ fs e = Some (FFile h c) /\ executable h.
(** The path of a name in a directory of PATH, which may be relative to the working directory [wd] *)
Definition candidate (wd dir name : str) : path :=
  clean_comps ($"/" ++ (if is_abs dir then [] else wd ++ $"/") ++ dir ++ $"/" ++ name).
Definition as_text (p : path) : str := path_text true p.
(** The directories in the first PATH of the environment *)
Definition path_dirs (env : list str) (dirs : list str) : Prop :=
  (exists before value after, env = before ++ ($"PATH=" ++ value) :: after /\ (forall x y, In x before -> x <> $"PATH=" ++ y) /\
     ((value = [] /\ dirs = []) \/ (value <> [] /\ value = join $":" dirs /\ dirs <> [] /\ Forall (fun d => ~ In ":"%char d) dirs))) \/
  ((forall x y, In x env -> x <> $"PATH=" ++ y) /\ dirs = []).
(** Layers that the image file system handles: well-formed entries that are not written through links,
    a root directory, no links to the root itself, no links through names of deletion markers. *)
Definition handled (layers : list (list entry)) : Prop :=
  plain_stack layers /\ Forall (Forall (fun e => ~ links_to_root e)) layers /\
  (exists m, unpack empty_root layers [] = Some (FDir m)) /\
  (forall p h c, unpack empty_root layers p = Some (FFile h c) -> th_type h = TypeSymlink -> Forall (fun x => marker_name x = false) (clean_comps (th_link h))).
(** A path that can be asked for *)
Definition askable (utf8 : str -> bool) (p : path) : Prop :=
  utf8 (open_name p) = true /\ Forall (fun x => marker_name x = false) p.
(** The path that a name with a slash stands for *)
Definition named (wd name : str) : path := clean_comps ($"/" ++ (if is_abs name then [] else wd ++ $"/") ++ name).
(** The path leads to a file or directory, or it leads nowhere for a reason that
    can be told (a missing name, a file in the place of a directory, a ring of
    links): following it does not go on forever. *)
Definition settles (fs : fsys) (p : path) : Prop :=
  (exists q e, walks fs [] p q /\ ends fs q e) \/ (exists e, leads_nowhere fs p e).
(** Files for the examples; "3" is tar.TypeChar, a character device *)
Definition a_program (ty : ascii) (name : str) : entry := (mkHeader ty name [] 0 493 0 0 [] [] None None None 0 0 [] 0, []).
Definition an_image : list (list entry) :=
  [[a_dir $"usr/"; a_dir $"usr/bin/"; a_program TypeReg $"usr/bin/ls"; a_symlink $"bin" $"usr/bin"; a_dir $"opt/"; a_file $"opt/ls" $"data"];
   [a_program TypeReg $"opt/run"; a_symlink $"usr/bin/run" $"../../opt/run"; a_program "3" $"opt/dev"]].
