(** What it means to unpack image layers, after the OCI image specification
    ("Applying Changesets", "Whiteouts"), independent of pkg/squash. *)
From Coq Require Import String Ascii List Bool ZArith Permutation.
From Verif.Model Require Import GoStr GoPath Tar.
From Verif.Spec Require Import PathSpec.
Import ListNotations.

(** A file system: what is at each path (list of names from the root).
    [FDir None]: a directory whose metadata no entry has specified. *)
Notation path := (list str).
Inductive fnode : Type :=
| FDir (meta : option header)
| FFile (meta : header) (content : str).
Definition fsys : Type := path -> option fnode.

Definition path_dec (p q : path) : {p = q} + {p <> q} := list_eq_dec (list_eq_dec ascii_dec) p q.
(** [q] is [p] or below it; [q] is strictly below [p]. *)
Fixpoint at_or_below (p q : path) : bool :=
  match p, q with
  | [], _ => true
  | x :: p', y :: q' => str_eqb x y && at_or_below p' q'
  | _ :: _, [] => false
  end.
Definition below (p q : path) : bool := at_or_below p q && negb (at_or_below q p).

(** Create the directory [d] and its ancestors where they are missing or are
    not directories. *)
Definition mkdirs (fs : fsys) (d : path) : fsys := fun q =>
  if at_or_below q d then
    match fs q with Some (FDir m) => Some (FDir m) | _ => Some (FDir None) end
  else fs q.
(** Remove a path with everything below it; remove only what is below. *)
Definition remove (fs : fsys) (p : path) : fsys := fun q => if at_or_below p q then None else fs q.
Definition remove_below (fs : fsys) (p : path) : fsys := fun q => if below p q then None else fs q.
Definition put_node (fs : fsys) (p : path) (n : fnode) : fsys := fun q => if path_dec q p then Some n else fs q.

(** The name recorded in a header is not part of the metadata. *)
Definition anon (h : header) : header := with_name h [].

(** The entries of a layer.  A marker is named [.wh.] followed by the hidden
    name, or [.wh..wh..opq]. *)
Definition entry_path (e : entry) : path := clean_comps (th_name (fst e)).
Definition hides (e : entry) (d : path) (x : str) : Prop := entry_path e = d ++ [$".wh." ++ x].
Definition marker_name (k : str) : bool := has_prefix $".wh." k.
Definition is_marker (e : entry) : bool := marker_name (last (entry_path e) []).
Definition is_dir (e : entry) : bool := byte_eqb (th_type (fst e)) TypeDir.
Definition is_link (e : entry) : bool := byte_eqb (th_type (fst e)) TypeSymlink.

(** Unpacking one entry. *)
Definition unpack_entry (fs : fsys) (e : entry) : fsys :=
  let p := entry_path e in
  let fs := mkdirs fs (removelast p) in
  let k := last p [] in
  if marker_name k then
    if str_eqb k $".wh..wh..opq" then remove_below fs (removelast p)
    else remove fs (removelast p ++ [skipn 4 k])
  else if is_dir e then put_node fs p (FDir (Some (anon (fst e))))
  else put_node (remove_below fs p) p (FFile (anon (fst e)) (snd e)).
(** Unpacking a layer: "whiteout files MUST only apply to resources in
    lower/parent layers", so the markers of a layer come first. *)
Definition in_order (layer : list entry) : list entry :=
  filter is_marker layer ++ filter (fun e => negb (is_marker e)) layer.
Definition unpack_layer (fs : fsys) (layer : list entry) : fsys := fold_left unpack_entry (in_order layer) fs.
Definition unpack (fs : fsys) (layers : list (list entry)) : fsys := fold_left unpack_layer layers fs.

(** Paths that can exist in an unpacked file system: no name is a marker name. *)
Definition real_path (p : path) : Prop := plain_path p /\ Forall (fun k => marker_name k = false) p.

(** [b] agrees with [a] wherever [a] is specified: same files with the same
    metadata and content, same directories, same directory metadata unless [a]
    leaves it open. *)
Definition agree (a b : option fnode) : Prop :=
  match a, b with
  | None, None => True
  | Some (FFile h c), Some (FFile h' c') => h = h' /\ c = c'
  | Some (FDir m), Some (FDir m') => m = None \/ m = m'
  | _, _ => False
  end.

(** Well-formed entries: the path stays in the root and is a real path, or a
    marker in a real directory for a real name; markers are not directories or
    links. *)
Definition good_entry (e : entry) : Prop :=
  is_abs (th_name (fst e)) = false /\
  (real_path (entry_path e) \/
   exists d k, entry_path e = d ++ [k] /\ real_path d /\ is_dir e = false /\ is_link e = false /\
     (k = $".wh..wh..opq" \/ exists x, k = $".wh." ++ x /\ real_path [x])).

(** The last entry of [es] at one of the paths satisfying [P]. *)
Definition last_entry (es : list entry) (P : path -> Prop) (e : entry) : Prop :=
  exists es1 es2, es = es1 ++ e :: es2 /\ P (entry_path e) /\ (forall e', In e' es2 -> ~ P (entry_path e')).
(** What is unpacked so far, from an empty root directory; what is at a path. *)
Definition empty_root : fsys := fun p => match p with [] => Some (FDir None) | _ => None end.
Definition unpacked (es : list entry) : fsys := fold_left unpack_entry es empty_root.
Definition is_symlink_at (fs : fsys) (p : path) : Prop := exists h c, fs p = Some (FFile h c) /\ th_type h = TypeSymlink.
Definition is_file_at (fs : fsys) (p : path) : Prop := exists h c, fs p = Some (FFile h c).
Definition is_dir_at (fs : fsys) (p : path) : Prop := exists m, fs p = Some (FDir m).
(** When [e] is unpacked, none of its proper ancestors is a symbolic link. *)
Definition no_link_above (before : list entry) (e : entry) : Prop :=
  forall q, below q (entry_path e) = true -> ~ is_symlink_at (unpacked before) q.
(** A directory entry does not follow a marker that hides its path, unless
    another entry for the path came in between. *)
Definition not_hidden (before : list entry) (e : entry) : Prop :=
  is_dir e = true -> forall d x w, entry_path e = d ++ [x] ->
  last_entry before (fun q => q = d ++ [x] \/ q = d ++ [$".wh." ++ x]) w -> entry_path w = d ++ [x].
Definition history (P : list entry -> entry -> Prop) (es : list entry) : Prop :=
  forall es1 e es2, es = es1 ++ e :: es2 -> P es1 e.

(** Nothing but a root directory. *)
Definition blank (base : fsys) : Prop := forall p, p <> [] -> base p = None.

(** All entries of a stack in the order of unpacking. *)
Definition all_entries (layers : list (list entry)) : list entry := flat_map in_order layers.

(** The order of a squashed layer: a directory before what is below it, among
    the names in a directory markers first, then by byte order. *)
Definition name_before (x y : str) : Prop :=
  (marker_name x = true /\ marker_name y = false) \/ (marker_name x = marker_name y /\ str_compare x y = Lt).
Definition before (p q : path) : Prop :=
  below p q = true \/ exists d x y r r', p = d ++ x :: r /\ q = d ++ y :: r' /\ name_before x y.

(** A stack of well-formed entries that are not written through symbolic links. *)
Definition plain_stack (layers : list (list entry)) : Prop :=
  Forall (Forall good_entry) layers /\ history no_link_above (all_entries layers).
(** When [e] is unpacked, none of its proper ancestors is a file. *)
Definition no_file_above (before : list entry) (e : entry) : Prop :=
  forall q, below q (entry_path e) = true -> ~ is_file_at (unpacked before) q.
(** The iteration order of Go maps: any permutation of the keys, for each map. *)
Definition permutes (order : list str -> list str -> list str) : Prop := forall p l, Permutation (order p l) l.

(** A marker that an opaque marker of the same directory, later in byte order,
    makes redundant; a layer without these. *)
Definition superseded (layer : list entry) (e : entry) : bool :=
  let k := last (entry_path e) [] in
  marker_name k && str_ltb k $".wh..wh..opq" &&
  existsb (fun e' => if path_dec (entry_path e') (removelast (entry_path e) ++ [$".wh..wh..opq"]) then true else false) layer.
Definition effective (layer : list entry) : list entry := filter (fun e => negb (superseded layer e)) layer.

(** The later entry [e] changes or hides what an entry put at [p] ([dir]: a
    directory): it is for the same path, it puts something that is not a
    directory above [p], it hides [p] or something above it, or it makes a
    directory of a file at [p]. *)
Definition overrides (e : entry) (p : path) (dir : bool) : Prop :=
  entry_path e = p \/
  (is_marker e = false /\ is_dir e = false /\ below (entry_path e) p = true) \/
  (exists d x, hides e d x /\ at_or_below (d ++ [x]) p = true) \/
  (exists d, entry_path e = d ++ [$".wh..wh..opq"] /\ below d p = true) \/
  (dir = false /\ below p (entry_path e) = true).

(** The name written for a path: a directory's name ends in a slash. *)
Definition written_name (e : entry) : str :=
  path_text false (entry_path e) ++ (if is_dir e then $"/" else []).
(** The name stays in the root: relative and not climbing. *)
Definition in_root (e : entry) : Prop := is_abs (th_name (fst e)) = false /\ plain_path (entry_path e).
(** A symbolic link to the root directory itself. *)
Definition links_to_root (e : entry) : Prop := is_link e = true /\ clean (th_link (fst e)) = $"/".
(** A link that is not in the place of the root directory, does not point to the
    root directory itself, and has no marker names in its text. *)
Definition proper_link (e : entry) : Prop := is_link e = true ->
  entry_path e <> [] /\ clean (th_link (fst e)) <> $"/" /\ Forall (fun k => marker_name k = false) (clean_comps (th_link (fst e))).
(** What an entry puts at its path. *)
Definition node_of (e : entry) : fnode :=
  if is_dir e then FDir (Some (anon (fst e))) else FFile (anon (fst e)) (snd e).

(** Following symbolic links.  [follows fs p D]: the path [p] leads to the
    directory [D]; [walks fs d names q]: from the directory [d] the names lead
    to [q], which may itself be a link.  The text of a link is cleaned first. *)
Inductive follows (fs : fsys) : path -> path -> Prop :=
| follows_dir p m : fs p = Some (FDir m) -> follows fs p p
| follows_link p h c q d : fs p = Some (FFile h c) -> th_type h = TypeSymlink ->
    walks fs (if is_abs (th_link h) then [] else removelast p) (clean_comps (th_link h)) q ->
    follows fs q d -> follows fs p d
with walks (fs : fsys) : path -> list str -> path -> Prop :=
| walks_nil d : walks fs d [] d
| walks_up d cs q : walks fs (removelast d) cs q -> walks fs d (dotdot :: cs) q
| walks_last d m c : fs d = Some (FDir m) -> plain_comp c -> fs (d ++ [c]) <> None -> walks fs d [c] (d ++ [c])
| walks_down d m c cs d' q : fs d = Some (FDir m) -> plain_comp c -> follows fs (d ++ [c]) d' -> cs <> [] ->
    walks fs d' cs q -> walks fs d (c :: cs) q.
(** Following symbolic links when writing: a directory that is missing, or a
    file in its place, becomes a directory.  [leads fs p D]: what is written
    below [p] is put below [D]; [reaches fs d names q]: from [d] the names lead to
    [q], which may itself be a link.  A link to the root directory itself is not
    followed (see C33_root_link_refuted). *)
Inductive leads (fs : fsys) : path -> path -> Prop :=
| leads_end p : ~ is_symlink_at fs p -> leads fs p p
| leads_link p h c q d : fs p = Some (FFile h c) -> th_type h = TypeSymlink -> clean (th_link h) <> $"/" ->
    reaches fs (if is_abs (th_link h) then [] else removelast p) (clean_comps (th_link h)) q ->
    leads fs q d -> leads fs p d
with reaches (fs : fsys) : path -> list str -> path -> Prop :=
| reaches_nil d : reaches fs d [] d
| reaches_up d cs q : reaches fs (removelast d) cs q -> reaches fs d (dotdot :: cs) q
| reaches_last d c : is_dir_at fs d -> plain_comp c -> reaches fs d [c] (d ++ [c])
| reaches_down d c cs d' q : is_dir_at fs d -> plain_comp c -> leads fs (d ++ [c]) d' -> cs <> [] ->
    reaches fs d' cs q -> reaches fs d (c :: cs) q
| reaches_new d cs : ~ is_dir_at fs d -> ~ is_symlink_at fs d -> cs <> [] -> plain_path cs -> reaches fs d cs (d ++ cs).
(** [e'] is the entry [e] with the part of its path that runs through links
    replaced by the directory it leads to. *)
Definition at_target (fs : fsys) (e e' : entry) : Prop :=
  anon (fst e') = anon (fst e) /\ snd e' = snd e /\ is_abs (th_name (fst e')) = false /\
  (entry_path e' = entry_path e \/
   exists a q d r, entry_path e = a ++ r /\ r <> [] /\ reaches fs [] a q /\ leads fs q d /\ entry_path e' = d ++ r).
(** All entries of a stack, each moved to where it leads in what has been unpacked so far. *)
Inductive all_at_target : fsys -> list entry -> list entry -> Prop :=
| aat_nil fs : all_at_target fs [] []
| aat_cons fs e e' es es' : at_target fs e e' -> all_at_target (unpack_entry fs e') es es' -> all_at_target fs (e :: es) (e' :: es').

(** The marker [w] hides the path [p]. *)
Definition marks (w : entry) (p : path) : Prop :=
  (exists d x, hides w d x /\ at_or_below (d ++ [x]) p = true) \/ (exists d, entry_path w = d ++ [$".wh..wh..opq"] /\ below d p = true).

(** Unpacking with hard links: a link makes the file its target names available
    under a second path (target missing or not a file: an entry of its own). *)
Definition is_hard_link (e : entry) : bool := byte_eqb (th_type (fst e)) TypeLink.
Definition target (e : entry) : path := clean_comps (th_link (fst e)).
Definition deref (fs : fsys) (e : entry) : entry :=
  if is_hard_link e && negb (is_marker e) then
    match fs (target e) with
    | Some (FFile h c) => (with_name h (th_name (fst e)), c)
    | _ => e
    end
  else e.
Definition link_entry (fs : fsys) (e : entry) : fsys := unpack_entry fs (deref fs e).
Definition unpack_linking (fs : fsys) (layers : list (list entry)) : fsys := fold_left link_entry (all_entries layers) fs.

(** Entries for the examples. *)
Definition an_entry (ty : ascii) (name link content : str) : entry :=
  (mkHeader ty name link (Z.of_nat (length content)) 420 0 0 [] [] None None None 0 0 [] 0, content).
Definition a_file (name content : str) : entry := an_entry TypeReg name [] content.
Definition a_dir (name : str) : entry := an_entry TypeDir name [] [].
Definition a_symlink (name to : str) : entry := an_entry TypeSymlink name to [].
Definition a_hard_link (name to : str) : entry := an_entry TypeLink name to [].
(** A root directory with the file foo/bar. *)
Definition with_foo_bar : fsys := fun p =>
  if path_dec p [] then Some (FDir None)
  else if path_dec p [$"foo"] then Some (FDir None)
  else if path_dec p [$"foo"; $"bar"] then Some (FFile (fst (a_file [] $"x")) $"x")
  else None.

(** An entry under the name that is written for its path. *)
Definition respelled (e : entry) : entry := (with_name (fst e) (written_name e), snd e).
(** Among the entries, one puts a file at [a] and one makes a directory of it. *)
Definition turned (es : list entry) (a : path) : Prop := exists e1 e2, In e1 es /\ In e2 es /\ entry_path e1 = a /\ is_dir e1 = false /\
  (below a (entry_path e2) = true \/ (entry_path e2 = a /\ is_dir e2 = true)).
(** What a symbolic link of the stack stands at is never made a directory, and
    nothing is ever put below it. *)
Definition links_apart (layers : list (list entry)) : Prop := forall e f, In e (concat layers) -> In f (concat layers) ->
  is_link e = true -> at_or_below (entry_path e) (entry_path f) = true -> entry_path f = entry_path e /\ is_dir f = false.
