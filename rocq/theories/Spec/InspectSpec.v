(** Which interpreters, owner and compiler a platform file should name. *)
From Coq Require Import String Ascii List Bool ZArith Permutation.
From Verif.Model Require Import GoStr GoPath Tar LookPath WheelName Platform Inspect.
From Verif.Spec Require Import PathSpec SquashSpec VfsFSSpec LookPathSpec.
Import ListNotations.

(** The console and the graphical interpreter for a program [f] found in the directory [d]; [ex] tells
    what is executable.  A program "pythonw..." is graphical, and "python..." beside it is the console
    interpreter if there is one; for a program "python..." it is the other way round; any other program
    is both. *)
Definition interpreters (ex : path -> Prop) (d : path) (f : str) (console graphical : str) : Prop :=
  let if_there (x y c : str) := (ex (d ++ [x]) /\ c = as_text (d ++ [x])) \/ (~ ex (d ++ [x]) /\ c = as_text (d ++ [y])) in
  (exists v, f = $"pythonw" ++ v /\ graphical = as_text (d ++ [f]) /\ if_there ($"python" ++ v) f console) \/
  (exists v, f = $"python" ++ v /\ hd_error v <> Some "w"%char /\ console = as_text (d ++ [f]) /\ if_there ($"pythonw" ++ v) f graphical) \/
  ((forall v, f <> $"python" ++ v) /\ console = as_text (d ++ [f]) /\ graphical = as_text (d ++ [f])).
(** The names that matter for [f]: itself, and with the "w" added or taken away *)
Definition variant (f x : str) : Prop :=
  x = f \/ exists v, (f = $"pythonw" ++ v /\ x = $"python" ++ v) \/ (f = $"python" ++ v /\ x = $"pythonw" ++ v).

(** The owner of what is at a path, of which a layer tells it; and directories that no layer describes. *)
Definition owned_by (fs : fsys) (p : path) (o : owner) : Prop :=
  exists q e h, walks fs [] p q /\ ends fs q e /\ (fs e = Some (FDir (Some h)) \/ exists c, fs e = Some (FFile h c)) /\
    o = mkOwner (th_uid h) (th_gid h) (th_uname h) (th_gname h).
Definition undescribed (fs : fsys) (p : path) : Prop := exists q e, walks fs [] p q /\ ends fs q e /\ fs e = Some (FDir None).

(** The name is that of a program [full] on the host, which tells the magic number [magic]. *)
Definition usable (look : str -> option str) (dynamic : str -> option dynamic_info) (magic name full : str) : Prop :=
  look name = Some full /\ exists d, dynamic full = Some d /\ dy_magic d = magic.

(** Two spellings of a key *)
Definition same_key (a b : str) : Prop := to_lower a = to_lower b.
(** The same document up to the order and the spelling of its keys *)
Inductive same_doc : doc -> doc -> Prop :=
| same_leaf d : same_doc d d
| same_map l l' : NoDup (map (fun x => to_lower (fst x)) l) ->
    (exists m, Permutation l m /\ Forall2 (fun x y => same_key (fst x) (fst y) /\ same_doc (snd x) (snd y)) m l') -> same_doc (DMap l) (DMap l').
(** The names of the fields *)
Definition plat_keys : list str :=
  [$"ConsoleShebang"; $"GraphicalShebang"; $"Scheme"; $"UID"; $"GID"; $"UName"; $"GName"; $"VersionInfo"; $"MagicNumber"; $"Tags"; $"PyCompile"].
Definition scheme_keys : list str := [$"purelib"; $"platlib"; $"headers"; $"scripts"; $"data"].
Definition version_keys : list str := [$"major"; $"minor"; $"micro"; $"releaselevel"; $"serial"].
(** All keys are known ones. *)
Definition only_keys (names : list str) (l : list (str * doc)) : Prop := forall k v, In (k, v) l -> exists name, In name names /\ same_key name k.
Definition known (d : doc) : Prop := exists l, d = DMap l /\ only_keys plat_keys l /\
  forall k v, In (k, v) l -> (same_key $"Scheme" k -> exists l', v = DMap l' /\ only_keys scheme_keys l') /\ (same_key $"VersionInfo" k -> exists l', v = DMap l' /\ only_keys version_keys l').
(** A tag whose three parts can be told apart in its text *)
Definition tag_parts (t : tag) : Prop := ~ In "-"%char (t_python t) /\ ~ In "-"%char (t_abi t) /\ ~ In "-"%char (t_platform t).
(** The platform file in the help text of "ocibuild layer wheel" (cmd_layer_wheel.go:31-59), and what it stands for *)
Definition help_doc : doc := DMap [($"ConsoleShebang", DStr $"/usr/bin/python3.9"); ($"GraphicalShebang", DStr $"/usr/bin/python3.9");
  ($"Scheme", DMap [($"purelib", DStr $"/usr/lib/python3.9/site-packages"); ($"platlib", DStr $"/usr/lib/python3.9/site-packages"); ($"headers", DStr $"/usr/include/site/python3.9/"); ($"scripts", DStr $"/usr/bin"); ($"data", DStr $"/usr")]);
  ($"UID", DInt 0); ($"GID", DInt 0); ($"UName", DStr $"root"); ($"GName", DStr $"root"); ($"PyCompile", DSeq [DStr $"python3.9"; DStr $"-m"; DStr $"compileall"])].
Definition help_scheme : scheme := mkScheme $"/usr/lib/python3.9/site-packages" $"/usr/lib/python3.9/site-packages" $"/usr/include/site/python3.9/" $"/usr/bin" $"/usr".
Definition help_plat : plat_file :=
  mkPlatFile (mkPlatform $"/usr/bin/python3.9" $"/usr/bin/python3.9" help_scheme 0 0 $"root" $"root") (mkVI 0 0 0 [] 0) [] [] [$"python3.9"; $"-m"; $"compileall"].
(** A description of a Python for the examples; the magic number is 'a\r\r\n' *)
Definition a_dynamic : dynamic_info :=
  mkDynamic $"YQ0NCg==" [mkTag $"cp39" $"cp39" $"linux_x86_64"; mkTag $"py3" $"none" $"any"] (mkVI 3 9 7 $"final" 0) help_scheme.
Definition a_magic : str := ["a"%char; "013"%char; "013"%char; "010"%char].
