(** pkg/python/pypa/bdist: installing a wheel. *)
From Coq Require Import String Ascii List Bool NArith ZArith.
From Verif.Model Require Import GoStr GoPath Regex Pep440 Tar Stat Layer ConfigParser Platform WheelFile.
Import ListNotations.

(** [delete(m, k)] *)
Fixpoint del_key {V} (k : str) (m : list (str * V)) : list (str * V) :=
  match m with
  | [] => []
  | (k', v) :: m => if str_eqb k k' then del_key k m else (k', v) :: del_key k m
  end.

(** A wheel is the list of the entries of the ZIP archive.
    binary_distribution_format.go:72-80 wheel.Open *)
Definition wh_open (wh : list zfile) (name : str) : content :=
  match find (fun f => str_eqb (clean (z_name (zf_header f))) (clean name)) wh with
  | Some f => zf_content f
  | None => OpenErr
  end.

(** misc.go:47-76 distInfoDir; [None] is an error.  The cache is not modelled. *)
Definition top_dir (f : zfile) : str := hd [] (split_on slash (clean (z_name (zf_header f)))).
Definition dist_info_dir (wh : list zfile) : option str :=
  match filter (has_suffix $".dist-info") (map top_dir wh) with
  | [] => None
  | d :: ds => if forallb (str_eqb d) ds then Some d else None
  end.

(** ** Checking *)
(** binary_distribution_format.go:731-737 strongHashes *)
Definition strong_hashes : list str := [$"sha256"; $"sha384"; $"sha512"].
(** zip.File.FileInfo().IsDir() *)
Definition zip_is_dir (f : zfile) : bool := bit_set (zip_mode (zf_header f)) go_dir.

Section check.
  (** [csv]: csv.NewReader(r).ReadAll() on a text, with [None] for an error.
      [digest algo]: the base64 form of the hash of a text. *)
  Context (csv : str -> option (list (list str))) (digest : str -> str -> str).

  (** binary_distribution_format.go:819-834 *)
  Definition files_to_check (info : str) (wh : list zfile) : list str :=
    filter (fun name => negb (str_eqb name (path_join [info; $"RECORD.jws"]) || str_eqb name (path_join [info; $"RECORD.p7s"])))
           (map (fun f => clean (z_name (zf_header f))) (filter (fun f => negb (zip_is_dir f)) wh)).
  (** binary_distribution_format.go:836-853 *)
  Definition record_rows (info : str) (wh : list zfile) : option (list (list str)) :=
    match wh_open wh (path_join [info; $"RECORD"]) with
    | Bytes text _ => csv text
    | _ => None
    end.
  (** binary_distribution_format.go:855-887 checkFile *)
  Definition check_file (wh : list zfile) (name algo : str) : option (str * nat) :=
    match wh_open wh name with
    | Bytes text _ =>
        match algo with
        | [] => Some ([], length text)
        | _ => if existsb (str_eqb algo) strong_hashes
               then Some (algo ++ $"=" ++ digest algo text, length text)
               else None
        end
    | _ => None
    end.
  (** binary_distribution_format.go:890-921: no error for this row *)
  Definition row_ok (info : str) (wh : list zfile) (row : list str) : bool :=
    match row with
    | [n; h; s] =>
        let name := clean n in
        (negb (str_eqb h [] || str_eqb s []) || str_eqb name (path_join [info; $"RECORD"])) &&
        match check_file wh name (fst (cut "=" h)) with
        | None => false
        | Some (h', s') => (str_eqb h [] || str_eqb h' h) && (str_eqb s [] || str_eqb (itoa (Z.of_nat s')) s)
        end
    | _ => false
    end.
  Definition row_name (row : list str) : list str := match row with [n; _; _] => [clean n] | _ => [] end.
  (** binary_distribution_format.go:813-936 integrityCheck: no error *)
  Definition integrity_check (wh : list zfile) : bool :=
    match dist_info_dir wh with
    | None => false
    | Some info =>
        match record_rows info wh with
        | None => false
        | Some rows =>
            forallb (row_ok info wh) rows &&
            forallb (fun name => existsb (str_eqb name) (concat (map row_name rows))) (files_to_check info wh)
        end
    end.
End check.

(** ** Unpacking *)
(** misc.go:39-42 isExecutable *)
Definition is_executable (h : zheader) : bool :=
  let u := za_unix (zip_parse (z_attrs h)) in is_regular u && bit_set u 73.
(** ioutil.go:77-103 create *)
Definition with_zname (h : zheader) (name : str) (dir : bool) : zheader :=
  mkZ (if dir then name ++ $"/" else name) (z_size h) (z_attrs h) (z_creator h) (z_modified h).
Definition created (min_time : option Z) (name : str) (f : zfile) : vref :=
  let h := zf_header f in
  let dir := has_suffix $"/" (z_name h) in
  let unix := if dir then N.lor ModeFmtDir 493 else if is_executable h then N.lor ModeFmtRegular 493 else N.lor ModeFmtRegular 420 in
  ZipRef (with_zname (mkZ [] (z_size h) (zip_raw (mkZipAttr unix 0 0)) 768
                        (match min_time with Some _ => min_time | None => z_modified h end)) name dir)
         (zf_content f).
(** binary_distribution_format.go:263-269 *)
Definition unpack_wheel (min_time : option Z) (dst : str) (wh : list zfile) : vfs :=
  fold_left (fun fs f => let name := path_join [dst; z_name (zf_header f)] in set_key name (created min_time name f) fs) wh [].

(** ** Spreading *)
(** ioutil.go:57-75 rename of an entry that exists; [None] is the panic if it is no zipEntry *)
Definition renamed (new : str) (r : vref) : option vref :=
  match r with
  | ZipRef h c => Some (ZipRef (with_zname h new (ref_dir r)) c)
  | _ => None
  end.
Inductive ierror :=
| WPlatform                 (* binary_distribution_format.go:99 *)
| WIntegrity                (* :116 *)
| WMetadata                 (* :239, 245, 248 *)
| WDataType (key : str)     (* :315 *)
| WShebang                  (* :327 *)
| WCompile                  (* :357 *)
| WHook                     (* :143 *)
| WChown                    (* :175 *)
| WLayer (e : lerr).        (* :183 *)
Inductive ires (A : Type) := IOk (a : A) | IErr (e : ierror) | IPanic | ILoop.
Arguments IOk {A} a.
Arguments IErr {A} e.
Arguments IPanic {A}.
Arguments ILoop {A}.

(** binary_distribution_format.go:302-317 *)
Definition scheme_dir (s : scheme) (key : str) : option str :=
  if str_eqb key $"purelib" then Some (s_purelib s)
  else if str_eqb key $"platlib" then Some (s_platlib s)
  else if str_eqb key $"headers" then Some (s_headers s)
  else if str_eqb key $"scripts" then Some (s_scripts s)
  else if str_eqb key $"data" then Some (s_data s)
  else None.
(** binary_distribution_format.go:290-323.  [sched]: the keys in the order in which
    Go ranges over the map; keys deleted before they are reached do not count,
    and keys added on the way may or may not be in it. *)
Fixpoint spread (s : scheme) (data : str) (sched : list str) (fs : vfs) (types : section) : ires (vfs * section) :=
  match sched with
  | [] => IOk (fs, types)
  | name :: sched =>
      match get_key name fs with
      | None => spread s data sched fs types
      | Some r =>
          if has_prefix (data ++ $"/") name then
            let '(key, rest) := cut "/" (trim_prefix (data ++ $"/") name) in
            match scheme_dir s key with
            | None => IErr (WDataType key)
            | Some dir =>
                let new := path_join [dir; match rest with Some rest => rest | None => [] end] in
                match renamed new r with
                | None => IPanic
                | Some r => spread s data sched (set_key new r (del_key name fs)) (set_key new key types)
                end
            end
          else spread s data sched fs types
      end
  end.

(** ** Shebangs *)
(** ioutil.go:18-36 skipReader, read to the end *)
Definition skip_read (skip : nat) (text : str) : content :=
  if (length text <? skip)%nat then ReadErr else Bytes (skipn skip text) true.
Definition sub64 (a b : N) : N := truncate 64 (a + 2 ^ 64 - b).
(** binary_distribution_format.go:380-442, for one script; [None] is an error.
    Simplified: the content is read to its end to look at its beginning. *)
Definition rewritten (digest : str -> str -> str) (pl : platform) (r : vref) : ires vref :=
  match ref_content r with
  | Bytes text close_ok =>
      let start := firstn 9 text in
      if negb (has_prefix $"#!python" start) then IOk r
      else match r with
           | ZipRef h _ =>
               let '(shebang, skip) := if str_eqb start $"#!pythonw" then (pl_graphical pl, 9%nat) else (pl_console pl, 8%nat) in
               let c := match skip_read skip text with
                        | Bytes rest _ => Bytes ($"#!" ++ shebang ++ rest) close_ok
                        | bad => bad
                        end in
               let size := sub64 (truncate 64 (z_size h + 2 + N.of_nat (length shebang))) (N.of_nat skip) in
               let a := zip_parse (z_attrs h) in
               let attrs := zip_raw (mkZipAttr (N.lor (za_unix a) 73) (za_unused a) (za_dos a)) in
               IOk (RecRef (mkZ (z_name h) size attrs (z_creator h) (z_modified h)) c
                      ($"sha256=" ++ digest $"sha256" text) (Z.of_nat (length text)))
           | _ => IPanic
           end
  | _ => IErr WShebang
  end.
(** binary_distribution_format.go:371-445 rewritePython; [types] in the order in
    which Go ranges over the map *)
Fixpoint rewrite_python (digest : str -> str -> str) (pl : platform) (types : section) (fs : vfs) : ires vfs :=
  match types with
  | [] => IOk fs
  | (name, key) :: types =>
      if str_eqb key $"scripts" then
        match get_key name fs with
        | None => IPanic
        | Some r =>
            match rewritten digest pl r with
            | IOk r => rewrite_python digest pl types (set_key name r fs)
            | IErr e => IErr e
            | IPanic => IPanic
            | ILoop => ILoop
            end
        end
      else rewrite_python digest pl types fs
  end.

(** ** The whole installation *)
(** misc.go:17-36 sanitizePlatformForLayer *)
Definition sanitize (pl : platform) : option platform :=
  match plat_init pl with
  | None => None
  | Some pl =>
      let s := pl_scheme pl in
      let t := trim_prefix $"/" in
      Some (mkPlatform (pl_console pl) (pl_graphical pl)
              (mkScheme (t (s_purelib s)) (t (s_platlib s)) (t (s_headers s)) (t (s_scripts s)) (t (s_data s)))
              (pl_uid pl) (pl_gid pl) (pl_uname pl) (pl_gname pl))
  end.

(** What is outside the model: besides [csv] and [digest],
    [o_wheel]: textproto's ReadMIMEHeader on a text, as the values of
    Wheel-Version and Root-Is-Purelib; [o_now]: reproducible.Now; [o_compile]:
    Platform.PyCompile (without the context and the Python path); [o_hook]: the
    post-install hook; [o_encodable]: whether tar.Writer accepts a header.
    And the choices of the runtime: [o_spread], [o_parents]: the keys that the
    range loops over the map visit, [o_types], [o_py], [o_refs]: the order of
    the other map loops; [o_sort]: sort.Slice. *)
Record outside := mkOut {
  o_csv : str -> option (list (list str));
  o_digest : str -> str -> str;
  o_wheel : str -> option (str * str);
  o_now : Z;
  o_compile : option Z -> list vref -> option (list vref);
  o_hook : option Z -> vfs -> str -> option vfs;
  o_encodable : header -> bool;
  o_spread : vfs -> list str;
  o_parents : vfs -> list str;
  o_types : section -> section;
  o_py : vfs -> vfs;
  o_refs : vfs -> vfs;
  o_sort : (fileref -> fileref -> bool) -> list fileref -> list fileref
}.

(** binary_distribution_format.go:237-262 with :661-689: the directory to unpack to
    (the warning about a newer minor version is not modelled) *)
Definition root_dir (o : outside) (s : scheme) (info : str) (wh : list zfile) : option str :=
  match wh_open wh (path_join [info; $"WHEEL"]) with
  | Bytes text _ =>
      match o_wheel o text with
      | None => None
      | Some (version, purelib) =>
          match parse_version version with
          | None => None
          | Some v =>
              if (1 <? major (pub v))%Z then None
              else Some (if str_eqb purelib $"true" then s_purelib s else s_platlib s)
          end
      end
  | _ => None
  end.

(** binary_distribution_format.go:117-136 *)
Definition after_max (acc : option Z) (f : zfile) : option Z :=
  let t := z_modified (zf_header f) in if time_after t acc then t else acc.
Definition max_time (o : outside) (wh : list zfile) (given : option Z) : option Z :=
  match given with
  | Some _ => given
  | None =>
      match fold_left after_max wh None with
      | None => Some (o_now o)
      | Some t => Some (round_second t + 1000000000)%Z
      end
  end.

(** binary_distribution_format.go:223-364 installToVFS *)
Definition data_dir (dst info : str) : str := path_join [dst; trim_suffix $".dist-info" info ++ $".data"].
Definition is_py (r : vref) : bool := has_suffix $".py" (path_base (ref_full r)).
Definition install_vfs (o : outside) (pl : platform) (min_time max_t : option Z) (wh : list zfile) : ires (vfs * str) :=
  match dist_info_dir wh with
  | None => IErr WMetadata
  | Some info =>
      match root_dir o (pl_scheme pl) info wh with
      | None => IErr WMetadata
      | Some dst =>
          let fs := unpack_wheel min_time dst wh in
          match spread (pl_scheme pl) (data_dir dst info) (o_spread o fs) fs [] with
          | IErr e => IErr e
          | IPanic => IPanic
          | ILoop => ILoop
          | IOk (fs, types) =>
              match rewrite_python (o_digest o) pl (o_types o types) fs with
              | IErr e => IErr e
              | IPanic => IPanic
              | ILoop => ILoop
              | IOk fs =>
                  let fs := del_key (path_join [dst; info; $"RECORD"]) fs in
                  let fs := del_key (path_join [dst; info; $"RECORD.jws"]) fs in
                  let fs := del_key (path_join [dst; info; $"RECORD.p7s"]) fs in
                  let fs := del_key (data_dir dst info) fs in
                  match o_compile o max_t (filter is_py (map snd (o_py o fs))) with
                  | None => IErr WCompile
                  | Some outs =>
                      IOk (fold_left (fun fs r => set_key (ref_full r) r fs) outs fs, path_join [dst; info])
                  end
              end
          end
      end
  end.

(** binary_distribution_format.go:149-164: the directories above a file; the loop
    takes one unit of fuel for each *)
Fixpoint add_parents (fuel : nat) (t : option Z) (dir : str) (fs : vfs) : option vfs :=
  match fuel with
  | O => None
  | S fuel =>
      if str_eqb dir dot then Some fs
      else add_parents fuel t (path_dir dir)
             (match get_key dir fs with Some _ => fs | None => set_key dir (mem_dir dir 493 t) fs end)
  end.
Fixpoint add_all_parents (fuel : nat) (t : option Z) (sched : list str) (fs : vfs) : option vfs :=
  match sched with
  | [] => Some fs
  | name :: sched =>
      match add_parents fuel t (path_dir name) fs with
      | None => None
      | Some fs => add_all_parents fuel t sched fs
      end
  end.

(** binary_distribution_format.go:166-180 with ioutil.go:119-130 newTarEntry.
    tar.FileInfoHeader of the new reference gives its header. *)
Definition owned (pl : platform) (h : header) : header :=
  mkHeader (th_type h) (th_name h) (th_link h) (th_size h) (th_mode h) (pl_uid pl) (pl_gid pl) (pl_uname pl) (pl_gname pl)
           (th_mtime h) (th_atime h) (th_ctime h) (th_devmajor h) (th_devminor h) (th_xattrs h) (th_format h).
Definition tar_entry (pl : platform) (r : vref) : option fileref :=
  match ref_header r with
  | None => None
  | Some h => Some (mkRef (clean (ref_full r)) (Some (owned pl (with_name h (ref_full r)))) (ref_content r))
  end.
Fixpoint tar_entries (pl : platform) (l : list vref) : option (list fileref) :=
  match l with
  | [] => Some []
  | r :: l =>
      match tar_entry pl r, tar_entries pl l with
      | Some r, Some l => Some (r :: l)
      | _, _ => None
      end
  end.

(** binary_distribution_format.go:88-186 InstallWheel, for an archive that can be
    opened, with hook *)
Definition install_wheel (o : outside) (fuel : nat) (pl : platform) (min_time max_given : option Z) (wh : list zfile)
    : ires (list entry) :=
  match sanitize pl with
  | None => IErr WPlatform
  | Some pl =>
      if negb (integrity_check (o_csv o) (o_digest o) wh) then IErr WIntegrity
      else
        let t := max_time o wh max_given in
        match install_vfs o pl min_time t wh with
        | IErr e => IErr e
        | IPanic => IPanic
        | ILoop => ILoop
        | IOk (fs, info) =>
            match o_hook o t fs info with
            | None => IErr WHook
            | Some fs =>
                match add_all_parents fuel t (o_parents o fs) fs with
                | None => ILoop
                | Some fs =>
                    match tar_entries pl (map snd (o_refs o fs)) with
                    | None => IErr WChown
                    | Some refs =>
                        match layer_from_refs (o_encodable o) (o_sort o) refs t with
                        | LayerOk l => IOk l
                        | LayerErr e => IErr (WLayer e)
                        | LayerFuel => ILoop
                        end
                    end
                end
            end
        end
  end.
