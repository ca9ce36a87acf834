(** pkg/python/pyinspect/pyinspect.go and cmd_python_inspect.go: "ocibuild python inspect", and the
    platform file that it writes for "ocibuild layer wheel". *)
From Coq Require Import String Ascii List Bool NArith ZArith.
From Verif.Model Require Import GoStr GoPath Tar Squash VfsFS LookPath WheelName Platform.
Import ListNotations.

(** pyinspect.go:56-80 Shebangs, for a file system with LookPath [look] whose Split and Join are
    those of package path (fs_image.go:49-52; fs_native.go:18-19 on UNIX) *)
Inductive sheb : Type := Shebangs (console graphical : str) | ShebangErr | ShebangCrash.
Definition python : str := $"python".
Definition pythonw : str := $"pythonw".
Definition graphical_of (look : str -> looked) (generic console : str) : sheb :=
  let '(d, f) := path_split console in
  if has_prefix python f && negb (has_prefix pythonw f)
  then match look (path_join [d; pythonw ++ trim_prefix python f]) with
       | Found s => Shebangs console s
       | NotFound => Shebangs console generic
       | Crashed => ShebangCrash
       end
  else Shebangs console generic.
Definition shebangs (look : str -> looked) (name : str) : sheb :=
  match look name with
  | NotFound => ShebangErr
  | Crashed => ShebangCrash
  | Found generic =>
      let '(d, f) := path_split generic in
      if has_prefix pythonw f
      then match look (path_join [d; python ++ trim_prefix pythonw f]) with
           | Found s => graphical_of look generic s
           | NotFound => graphical_of look generic generic
           | Crashed => ShebangCrash
           end
      else graphical_of look generic generic
  end.

(** exec.LookPath of the standard library on UNIX (fs_native.go:46-59), before Go 1.19; [ex] tells which
    texts are names of executable files, [dirs] are the directories in PATH *)
Fixpoint native_in (ex : str -> bool) (name : str) (dirs : list str) : looked :=
  match dirs with
  | [] => NotFound
  | dir :: dirs =>
      let full := path_join [match dir with [] => $"." | _ => dir end; name] in
      if ex full then Found full else native_in ex name dirs
  end.
Definition native_look (ex : str -> bool) (dirs : list str) (name : str) : looked :=
  if contains_byte slash name then (if ex name then Found name else NotFound) else native_in ex name dirs.

(** The owner that Stat tells (pyinspect.go:18-35) *)
Record owner : Type := mkOwner { o_uid : Z; o_gid : Z; o_uname : str; o_gname : str }.
Inductive statted : Type := Owned (o : owner) | NoStat | StatCrash.
Definition owner_of (h : header) : owner := mkOwner (th_uid h) (th_gid h) (th_uname h) (th_gname h).
(** fs_image.go:92-115 ImageFS.Stat on a loaded image; only the owner of the result *)
Definition image_stat (utf8 : str -> bool) (n : nat) (t : tree) (name : str) : statted :=
  if negb (is_abs name) then NoStat
  else match open utf8 n t (skipn 1 name) with
       | OutOfFuel => StatCrash
       | Fail _ => NoStat
       | Ret (lnk, tgt) =>
           match stat t lnk tgt with
           | StatPanic => StatCrash
           | StatErr _ => NoStat
           | StatOk h => Owned (owner_of h)
           end
       end.
(** cmd_python_inspect.go:107-122 *)
Fixpoint first_owner (stat : str -> statted) (dirs : list str) : statted :=
  match dirs with
  | [] => NoStat
  | dir :: dirs => match stat dir with
                   | NoStat => first_owner stat dirs
                   | r => r
                   end
  end.

(** pyinspect.go:82-87 DynamicInfo *)
Record dynamic_info : Type := mkDynamic { dy_magic : str; dy_tags : list tag; dy_version : version_info; dy_scheme : scheme }.
(** cmd_python_inspect.go:127-131 *)
Definition host_names (vi : version_info) : list str :=
  [python ++ itoa (vi_major vi) ++ $"." ++ itoa (vi_minor vi); python ++ itoa (vi_major vi); python].
(** cmd_python_inspect.go:132-158.  [look] is exec.LookPath on the host, [dynamic] runs an interpreter
    there ([None]: an error). *)
Fixpoint find_host (look : str -> option str) (dynamic : str -> option dynamic_info) (magic : str) (names : list str) : option str :=
  match names with
  | [] => None
  | name :: names =>
      match look name with
      | None => find_host look dynamic magic names
      | Some name =>
          match dynamic name with
          | None => find_host look dynamic magic names
          | Some d => if str_eqb (dy_magic d) magic then Some name else find_host look dynamic magic names
          end
      end
  end.
(** cmd_python_inspect.go:59-62: python.Platform with the fields left out in Platform.v, and PyCompile *)
Record plat_file : Type := mkPlatFile {
  pf_platform : platform;
  pf_version : version_info;
  pf_magic : str;
  pf_tags : list tag;
  pf_compile : list str
}.
Inductive inspected : Type := Inspected (p : plat_file) | InspectErr | InspectCrash.
(** cmd_python_inspect.go:40-160.  [look] and [stat] are those of the inspected system; [dynamic] runs the
    interpreter there; [image] says whether it is an image; [host_look] and [host_dynamic] are for the
    host; [unbase64] is base64.StdEncoding.DecodeString. *)
Definition inspect (image : bool) (look : str -> looked) (stat : str -> statted) (dynamic : str -> option dynamic_info)
    (host_look : str -> option str) (host_dynamic : str -> option dynamic_info) (unbase64 : str -> option str) (interpreter : str) : inspected :=
  match shebangs look interpreter with
  | ShebangErr => InspectErr
  | ShebangCrash => InspectCrash
  | Shebangs console graphical =>
      match dynamic console with
      | None => InspectErr
      | Some dyn =>
          match unbase64 (dy_magic dyn) with
          | None => InspectErr
          | Some magic =>
              match first_owner stat (scheme_paths (dy_scheme dyn)) with
              | NoStat => InspectErr
              | StatCrash => InspectCrash
              | Owned o =>
                  let host := if image then find_host host_look host_dynamic (dy_magic dyn) (host_names (dy_version dyn)) else Some console in
                  match host with
                  | None => InspectErr
                  | Some name =>
                      Inspected (mkPlatFile (mkPlatform console graphical (dy_scheme dyn) (o_uid o) (o_gid o) (o_uname o) (o_gname o))
                        (dy_version dyn) magic (dy_tags dyn) [name; $"-m"; $"compileall"])
                  end
              end
          end
      end
  end.

(** *** the platform file
    YAML documents after parsing and before formatting; the texts are not modelled. *)
Inductive doc : Type := DStr (s : str) | DInt (z : Z) | DSeq (l : list doc) | DMap (l : list (str * doc)).
(** gopkg.in/yaml.v2: fields without a yaml tag are named by their lower-cased Go name, a []byte is a
    sequence of numbers, a TextMarshaler a string (tags.go:45-47).  pf_platform: platform.go:11-27 *)
Definition scheme_doc (s : scheme) : doc :=
  DMap [($"purelib", DStr (s_purelib s)); ($"platlib", DStr (s_platlib s)); ($"headers", DStr (s_headers s)); ($"scripts", DStr (s_scripts s)); ($"data", DStr (s_data s))].
Definition version_doc (v : version_info) : doc :=
  DMap [($"major", DInt (vi_major v)); ($"minor", DInt (vi_minor v)); ($"micro", DInt (vi_micro v)); ($"releaselevel", DStr (vi_level v)); ($"serial", DInt (vi_serial v))].
Definition bytes_doc (s : str) : doc := DSeq (map (fun c => DInt (Z.of_nat (nat_of_ascii c))) s).
Definition plat_doc (p : plat_file) : doc :=
  let pl := pf_platform p in
  DMap [($"consoleshebang", DStr (pl_console pl)); ($"graphicalshebang", DStr (pl_graphical pl)); ($"scheme", scheme_doc (pl_scheme pl));
        ($"uid", DInt (pl_uid pl)); ($"gid", DInt (pl_gid pl)); ($"uname", DStr (pl_uname pl)); ($"gname", DStr (pl_gname pl));
        ($"versioninfo", version_doc (pf_version p)); ($"magicnumber", bytes_doc (pf_magic p));
        ($"tags", DSeq (map (fun t => DStr (tag_string t)) (pf_tags p))); ($"pycompile", DSeq (map DStr (pf_compile p)))].

(** cmd_layer_wheel.go:64-74: sigs.k8s.io/yaml converts the document to JSON; encoding/json finds the
    field of a key by its name, ignoring case; DisallowUnknownFields makes other keys an error.  Fields
    without a key are left as they were.  Numbers are accepted for texts.  Simplified: ASCII case only;
    the later of several keys for one field wins, where the program takes the keys in sorted order; no
    null values, and no text for MagicNumber. *)
Definition field (name key : str) : bool := str_eqb (to_lower name) (to_lower key).
Definition as_str (d : doc) : option str := match d with DStr s => Some s | DInt z => Some (itoa z) | _ => None end.
Definition as_int (d : doc) : option Z := match d with DInt z => Some z | _ => None end.
Fixpoint each {A} (f : doc -> option A) (l : list doc) : option (list A) :=
  match l with
  | [] => Some []
  | d :: l => match f d, each f l with Some a, Some r => Some (a :: r) | _, _ => None end
  end.
Definition as_list {A} (f : doc -> option A) (d : doc) : option (list A) := match d with DSeq l => each f l | _ => None end.
Definition as_byte (d : doc) : option ascii :=
  match d with DInt z => if ((0 <=? z) && (z <? 256))%Z then Some (ascii_of_nat (Z.to_nat z)) else None | _ => None end.
(** tags.go:49-56 UnmarshalText *)
Definition as_tag (d : doc) : option tag := match d with DStr s => parse_tag s | _ => None end.
Fixpoint fields {A} (set : A -> str -> doc -> option A) (a : A) (l : list (str * doc)) : option A :=
  match l with
  | [] => Some a
  | (k, d) :: l => match set a k d with Some a => fields set a l | None => None end
  end.
Definition as_map {A} (set : A -> str -> doc -> option A) (a : A) (d : doc) : option A := match d with DMap l => fields set a l | _ => None end.
(** platform.go:60-69, 29-35: names from the json tags *)
Definition set_scheme (s : scheme) (k : str) (d : doc) : option scheme :=
  let '(mkScheme a b c e f) := s in
  if field $"purelib" k then option_map (fun x => mkScheme x b c e f) (as_str d)
  else if field $"platlib" k then option_map (fun x => mkScheme a x c e f) (as_str d)
  else if field $"headers" k then option_map (fun x => mkScheme a b x e f) (as_str d)
  else if field $"scripts" k then option_map (fun x => mkScheme a b c x f) (as_str d)
  else if field $"data" k then option_map (fun x => mkScheme a b c e x) (as_str d)
  else None.
Definition set_version (v : version_info) (k : str) (d : doc) : option version_info :=
  let '(mkVI a b c e f) := v in
  if field $"major" k then option_map (fun x => mkVI x b c e f) (as_int d)
  else if field $"minor" k then option_map (fun x => mkVI a x c e f) (as_int d)
  else if field $"micro" k then option_map (fun x => mkVI a b x e f) (as_int d)
  else if field $"releaselevel" k then option_map (fun x => mkVI a b c x f) (as_str d)
  else if field $"serial" k then option_map (fun x => mkVI a b c e x) (as_int d)
  else None.
(** platform.go:11-27 (PyCompile of Platform is not a field for JSON) and cmd_layer_wheel.go:68-71 *)
Definition set_plat (p : plat_file) (k : str) (d : doc) : option plat_file :=
  let '(mkPlatFile (mkPlatform con gra sch uid gid un gn) ver mag tags comp) := p in
  if field $"ConsoleShebang" k then option_map (fun x => mkPlatFile (mkPlatform x gra sch uid gid un gn) ver mag tags comp) (as_str d)
  else if field $"GraphicalShebang" k then option_map (fun x => mkPlatFile (mkPlatform con x sch uid gid un gn) ver mag tags comp) (as_str d)
  else if field $"Scheme" k then option_map (fun x => mkPlatFile (mkPlatform con gra x uid gid un gn) ver mag tags comp) (as_map set_scheme sch d)
  else if field $"UID" k then option_map (fun x => mkPlatFile (mkPlatform con gra sch x gid un gn) ver mag tags comp) (as_int d)
  else if field $"GID" k then option_map (fun x => mkPlatFile (mkPlatform con gra sch uid x un gn) ver mag tags comp) (as_int d)
  else if field $"UName" k then option_map (fun x => mkPlatFile (mkPlatform con gra sch uid gid x gn) ver mag tags comp) (as_str d)
  else if field $"GName" k then option_map (fun x => mkPlatFile (mkPlatform con gra sch uid gid un x) ver mag tags comp) (as_str d)
  else if field $"VersionInfo" k then option_map (fun x => mkPlatFile (mkPlatform con gra sch uid gid un gn) x mag tags comp) (as_map set_version ver d)
  else if field $"MagicNumber" k then option_map (fun x => mkPlatFile (mkPlatform con gra sch uid gid un gn) ver x tags comp) (as_list as_byte d)
  else if field $"Tags" k then option_map (fun x => mkPlatFile (mkPlatform con gra sch uid gid un gn) ver mag x comp) (as_list as_tag d)
  else if field $"PyCompile" k then option_map (fun x => mkPlatFile (mkPlatform con gra sch uid gid un gn) ver mag tags x) (as_list as_str d)
  else None.
Definition zero_plat : plat_file :=
  mkPlatFile (mkPlatform [] [] (mkScheme [] [] [] [] []) 0 0 [] []) (mkVI 0 0 0 [] 0) [] [] [].
Definition read_plat (d : doc) : option plat_file := as_map set_plat zero_plat d.
