(** What installing a wheel should do. *)
From Coq Require Import String Ascii List Bool NArith ZArith Permutation.
From Verif.Model Require Import GoStr GoPath Tar Stat Layer ConfigParser Platform WheelFile Wheel.
From Verif.Spec Require Import PathSpec SimpleAPISpec LayerSpec.
Import ListNotations.

(** A relative path that names something below the root and has no ".." left
    after cleaning; the text may contain "." and repeated or trailing slashes. *)
Definition inner (p : str) : Prop := is_abs p = false /\ clean_comps p <> [] /\ plain_path (clean_comps p).
(** All five directories of the scheme *)
Definition inner_scheme (s : scheme) : Prop := Forall inner (scheme_paths s).

(** The directory for a key of the .data directory *)
Definition key_dirs (s : scheme) : list (str * str) :=
  [($"purelib", s_purelib s); ($"platlib", s_platlib s); ($"headers", s_headers s); ($"scripts", s_scripts s); ($"data", s_data s)].
(** Where an entry of the archive belongs: what is in a subdirectory of [data] goes
    to the directory of the scheme that the subdirectory names, everything else to
    [root].  With the key; [None] for unknown keys. *)
Definition destination (s : scheme) (root data name : str) : option (option str * str) :=
  let below dir cs := join $"/" (clean_comps dir ++ cs) in
  match clean_comps name with
  | d :: key :: rest =>
      if str_eqb d data
      then match get_key key (key_dirs s) with
           | Some dir => Some (Some key, below dir rest)
           | None => None
           end
      else Some (None, below root (d :: key :: rest))
  | cs => Some (None, below root cs)
  end.

(** The text of a script after installation *)
Definition shebang_line (console graphical text : str) : str :=
  if has_prefix $"#!pythonw" text then $"#!" ++ graphical ++ skipn 9 text
  else if has_prefix $"#!python" text then $"#!" ++ console ++ skipn 8 text
  else text.

(** The name of the data directory *)
Definition data_name (info : str) : str := trim_suffix $".dist-info" info ++ $".data".
(** Nothing goes (back) into the data directory *)
Definition not_nested (s : scheme) (root data : str) (wh : list zfile) : Prop :=
  forall f key name x, In f wh -> destination s root data (z_name (zf_header f)) = Some (Some key, name) ->
  name <> join $"/" (clean_comps root ++ [data]) ++ $"/" ++ x.
(** [info] is a top-level directory with metadata *)
Definition info_of (wh : list zfile) (info : str) : Prop :=
  has_suffix $".dist-info" info = true /\ exists f cs, In f wh /\ clean_comps (z_name (zf_header f)) = info :: cs.
(** The directory for all that is not in the data directory *)
Definition root_of (s : scheme) (root : str) : Prop := root = s_purelib s \/ root = s_platlib s.
Definition never_nested (s : scheme) (wh : list zfile) : Prop :=
  forall info root, info_of wh info -> root_of s root -> not_nested s root (data_name info) wh.
(** Entries whose names end in a slash are directories *)
Definition entry_is_dir (f : zfile) : bool := has_suffix $"/" (z_name (zf_header f)).
(** All entries have a name inside and a known destination *)
Definition inner_names (wh : list zfile) : Prop := Forall (fun f => inner (z_name (zf_header f))) wh.
Definition known_keys (s : scheme) (root data : str) (wh : list zfile) : Prop :=
  Forall (fun f => destination s root data (z_name (zf_header f)) <> None) wh.
(** No two entries have the same destination *)
Definition no_clash (s : scheme) (root data : str) (wh : list zfile) : Prop :=
  NoDup (map (fun f => option_map snd (destination s root data (z_name (zf_header f)))) wh).

(** Another entry has the destination [name] *)
Definition taken (s : scheme) (root data : str) (wh : list zfile) (f : zfile) (name : str) : Prop :=
  exists g key, In g wh /\ g <> f /\ destination s root data (z_name (zf_header g)) = Some (key, name).

(** ** Entries of the layer *)
(** The UNIX mode in the upper half of the external attributes is that of a regular
    file with an execute bit. *)
Definition marked_executable (f : zfile) : bool :=
  let mode := N.shiftr (z_attrs (zf_header f)) 16 in
  ((N.land mode 61440 =? 32768) && negb (N.land mode 73 =? 0))%N.
Definition is_script (key : option str) : bool := match key with Some k => str_eqb k $"scripts" | None => false end.
(** [e] is what should become of [f]: at its destination, a directory with mode 0755,
    or a regular file with mode 0755 or 0644 and the bytes of [f], where the first line
    of a Python script names the interpreter. *)
Definition entry_from (pl : platform) (root data : str) (f : zfile) (e : entry) : Prop :=
  exists key, destination (pl_scheme pl) root data (z_name (zf_header f)) = Some (key, th_name (fst e)) /\
  if entry_is_dir f then th_type (fst e) = TypeDir /\ th_mode (fst e) = 493%Z /\ snd e = []
  else exists text, zf_content f = Bytes text true /\ th_type (fst e) = TypeReg /\
    snd e = (if is_script key then shebang_line (pl_console pl) (pl_graphical pl) text else text) /\
    th_size (fst e) = Z.of_nat (length (snd e)) /\
    th_mode (fst e) = (if marked_executable f || (is_script key && has_prefix $"#!python" text) then 493%Z else 420%Z).
(** [e] has the name and the content of [r] *)
Definition entry_of_ref (r : vref) (e : entry) : Prop :=
  th_name (fst e) = clean (ref_full r) /\ (th_type (fst e) = TypeReg -> ref_content r = Bytes (snd e) true).

(** ** The runtime *)
(** All keys are visited, only keys (also those added on the way, the directories above)
    are visited, nothing is lost, and sort.Slice sorts. *)
Definition fair (o : outside) : Prop :=
  (forall fs, incl (map fst fs) (o_spread o fs)) /\ (forall fs, incl (map fst fs) (o_parents o fs)) /\
  (forall fs k, In k (o_parents o fs) -> In k (map fst fs) \/ exists k', In k' (map fst fs) /\ below k k') /\
  (forall t, Permutation (o_types o t) t) /\ (forall fs, Permutation (o_py o fs) fs) /\
  (forall fs, Permutation (o_refs o fs) fs) /\ sorts (o_sort o).
(** A map of files by name, with relative names in clean form *)
Definition good_map (fs : vfs) : Prop :=
  NoDup (map fst fs) /\ Forall (fun kr => fst kr = ref_full (snd kr) /\ clean_path (fst kr) /\ is_abs (fst kr) = false) fs.
(** Names inside *)
Definition plain_names (fs : vfs) : Prop := Forall (fun kr => inner (fst kr)) fs.
(** The compiler and the hook keep to that. *)
Definition good_names (o : outside) : Prop :=
  (forall t l outs, o_compile o t l = Some outs -> Forall (fun r => clean_path (ref_full r) /\ is_abs (ref_full r) = false) outs) /\
  (forall t fs info fs', o_hook o t fs info = Some fs' -> clean_path info -> is_abs info = false -> good_map fs -> good_map fs').

(** What is not installed: RECORD and its signatures, and the empty data directory *)
Definition left_out (root info : str) : list str :=
  map (fun p => join $"/" (clean_comps root ++ p))
    [[info; $"RECORD"]; [info; $"RECORD.jws"]; [info; $"RECORD.p7s"]; [data_name info]].
(** The compiler makes [outs], given at the time [t] only Python files of the archive, as they are installed. *)
Definition compiles (o : outside) (pl : platform) (t : option Z) (wh : list zfile) (root info : str) (outs : list vref) : Prop :=
  exists refs, o_compile o t refs = Some outs /\
  Forall (fun r => has_suffix $".py" (path_base (ref_full r)) = true /\
    exists f key, In f wh /\ destination (pl_scheme pl) root (data_name info) (z_name (zf_header f)) = Some (key, ref_full r) /\
    forall text ok, zf_content f = Bytes text ok ->
      ref_content r = Bytes (if is_script key then shebang_line (pl_console pl) (pl_graphical pl) text else text) ok) refs.
(** The hook makes [fs'] of [fs], with which it is called at the time [t]. *)
Definition hooks (o : outside) (pl : platform) (min t : option Z) (wh : list zfile) (fs fs' : vfs) : Prop :=
  exists dir, install_vfs o pl min t wh = IOk (fs, dir) /\ o_hook o t fs dir = Some fs'.
(** Where an entry of the layer [l] comes from, for the platform [pl] that
    InstallWheel works with, the earliest time [min] and the latest [t] *)
Inductive origin (o : outside) (pl : platform) (min t : option Z) (wh : list zfile) (root info : str) (l : list entry) (e : entry) : Prop :=
| from_archive f : In f wh -> entry_from pl root (data_name info) f e -> ~ In (th_name (fst e)) (left_out root info) ->
    origin o pl min t wh root info l e
| from_compiler outs r : compiles o pl t wh root info outs -> In r outs -> entry_of_ref r e -> origin o pl min t wh root info l e
| from_hook fs fs' k r : hooks o pl min t wh fs fs' -> get_key k fs' = Some r -> get_key k fs <> Some r ->
    entry_of_ref r e -> origin o pl min t wh root info l e
| parent_of e' : In e' l -> below (th_name (fst e)) (th_name (fst e')) ->
    th_type (fst e) = TypeDir -> th_mode (fst e) = 493%Z -> snd e = [] -> origin o pl min t wh root info l e.

(** ** RECORD *)
(** The RECORD file in [info] has a row for [f] with a digest of the bytes of [f]. *)
Definition recorded (o : outside) (wh : list zfile) (info : str) (f : zfile) : Prop :=
  exists record record_text ok rows, In record wh /\ clean_comps (z_name (zf_header record)) = [info; $"RECORD"] /\
  zf_content record = Bytes record_text ok /\ o_csv o record_text = Some rows /\
  exists name algo size text ok', In [name; algo ++ $"=" ++ o_digest o algo text; size] rows /\
  clean name = clean (z_name (zf_header f)) /\ In algo [$"sha256"; $"sha384"; $"sha512"] /\
  zf_content f = Bytes text ok'.
(** No two entries with the same name *)
Definition distinct_names (wh : list zfile) : Prop := NoDup (map (fun f => clean (z_name (zf_header f))) wh).
(** The attributes mark an entry as a directory: for the system of the entry (the upper byte
    of the version) in the type of the UNIX mode, or in bit 4 of the DOS attributes. *)
Definition marked_dir (h : zheader) : Prop :=
  let system := (z_creator h / 256)%N in
  (In system [3; 19]%N /\ N.land (z_attrs h / 65536) 61440 = 16384%N) \/
  (In system [0; 11; 14]%N /\ N.testbit (z_attrs h) 4 = true).
(** Only entries whose names end in a slash are marked as directories. *)
Definition honest_dirs (wh : list zfile) : Prop := Forall (fun f => marked_dir (zf_header f) -> entry_is_dir f = true) wh.

(** ** Archives without surprises *)
Definition tame (s : scheme) (wh : list zfile) : Prop :=
  inner_scheme s /\ inner_names wh /\ never_nested s wh /\
  forall info root, info_of wh info -> root_of s root -> known_keys s root (data_name info) wh /\ no_clash s root (data_name info) wh.
(** The same tools, but possibly other choices of the runtime.  The compiler and the hook
    may also give their results in another order, and for arguments in another order. *)
Definition same_set {A} (a b : option (list A)) : Prop :=
  match a, b with
  | Some a, Some b => Permutation a b
  | None, None => True
  | _, _ => False
  end.
Definition same_tools (o o' : outside) : Prop :=
  o_csv o = o_csv o' /\ o_digest o = o_digest o' /\ o_wheel o = o_wheel o' /\ o_now o = o_now o' /\ o_encodable o = o_encodable o' /\
  forall t l l', Permutation l l' -> same_set (o_compile o t l) (o_compile o' t l').
(** For what the hook is called with *)
Definition same_hooks (o o' : outside) (pl : platform) (min : option Z) (wh : list zfile) : Prop :=
  forall t fs fs' info, install_vfs o pl min t wh = IOk (fs, info) -> Permutation fs fs' -> same_set (o_hook o t fs info) (o_hook o' t fs' info).
(** The compiler gives no two files with the same name. *)
Definition distinct_outputs (o : outside) : Prop := forall t l outs, o_compile o t l = Some outs -> NoDup (map ref_full outs).
(** It gives .pyc files. *)
Definition pyc_outputs (o : outside) : Prop :=
  forall t l outs, o_compile o t l = Some outs -> Forall (fun r => inner (ref_full r) /\ clean_path (ref_full r) /\ has_suffix $".pyc" (ref_full r) = true /\ exists m, r = MemRef m) outs.
(** A file in the .dist-info directory *)
Definition in_info (info name : str) : str := join $"/" (clean_comps info ++ [name]).
(** What a hook may expect: a clean name of the .dist-info directory, files with clean names inside, no RECORD *)
Definition hook_input (fs : vfs) (info : str) : Prop :=
  inner info /\ clean_path info /\ good_map fs /\ plain_names fs /\ get_key (in_info info $"RECORD") fs = None.
