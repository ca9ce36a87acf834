(** pkg/python/pyinspect/fs_image.go: looking for programs in an image. *)
From Coq Require Import String Ascii List Bool ZArith.
From Verif.Model Require Import GoStr GoPath Tar Squash VfsFS.
Import ListNotations.

(** fs_image.go:28-34 linuxFilepathSplitList *)
Definition split_list (path : str) : list str := match path with [] => [] | _ => split_on ":" path end.
(** fs_image.go:36-47 lookupEnv *)
Fixpoint lookup_env (environ : list str) (key : str) : option str :=
  match environ with
  | [] => None
  | kv :: environ => if has_prefix (key ++ $"=") kv then Some (trim_prefix (key ++ $"=") kv) else lookup_env environ key
  end.
(** The parts of ociv1.ConfigFile that matter: Config.WorkingDir and Config.Env *)
Record image_config : Type := mkImageConfig { ic_workdir : str; ic_env : list str }.
(** fs_image.go:57-74 imgWD and imgPATH; [None] is a nil ConfigFile *)
Definition img_wd (cfg : option image_config) : str :=
  match cfg with
  | None => $"/"
  | Some c => match ic_workdir c with
              | [] => $"/"
              | d => if has_prefix $"/" d then d else $"/" ++ d
              end
  end.
Definition img_path (cfg : option image_config) : list str :=
  match cfg with
  | None => []
  | Some c => match lookup_env (ic_env c) $"PATH" with Some p => split_list p | None => [] end
  end.

(** headerFileInfo.Mode of archive/tar (standard library): whether it has ModeDir, and its
    permission bits, for 32-bit modes *)
Definition mode_is_dir (h : header) : bool :=
  byte_eqb (th_type h) TypeDir || (Z.land (th_mode h) (4294967295 - 4095) =? 16384)%Z.
Definition mode_perm (h : header) : Z := Z.land (th_mode h) 511.

Inductive checked : Type := ChkOk | ChkErr | ChkCrash.
(** fs_image.go:92-115 Stat with :117-126 checkExecutable.  [n] is the depth of recursion; the
    program crashes if it has not enough of it, or if Stat panics. *)
Definition check_executable (utf8 : str -> bool) (n : nat) (t : tree) (full : str) : checked :=
  if negb (is_abs full) then ChkErr
  else match open utf8 n t (skipn 1 full) with
       | OutOfFuel => ChkCrash
       | Fail _ => ChkErr
       | Ret (lnk, tgt) =>
           match stat t lnk tgt with
           | StatPanic => ChkCrash
           | StatErr _ => ChkErr
           | StatOk h => if mode_is_dir h || (Z.land (mode_perm h) 73 =? 0)%Z then ChkErr else ChkOk
           end
       end.
Inductive looked : Type := Found (full : str) | NotFound | Crashed.
(** fs_image.go:153-162 *)
Fixpoint look_in (check : str -> checked) (wd name : str) (dirs : list str) : looked :=
  match dirs with
  | [] => NotFound
  | dir :: dirs =>
      let full := path_join [dir; name] in
      let full := if negb (is_abs full) then path_join [wd; full] else full in
      match check full with
      | ChkOk => Found full
      | ChkErr => look_in check wd name dirs
      | ChkCrash => Crashed
      end
  end.
(** fs_image.go:143-163 *)
Definition look (check : str -> checked) (wd name : str) (dirs : list str) : looked :=
  if contains_byte slash name then
    let full := if negb (is_abs name) then path_join [wd; name] else name in
    match check full with
    | ChkOk => Found full
    | ChkErr => NotFound
    | ChkCrash => Crashed
    end
  else look_in check wd name dirs.
(** fs_image.go:128-163 LookPath with :54-90 ensureInitialized, on the layers of an image.
    Simplified: errors are not told apart, and those of the image itself are not modelled. *)
Definition look_path (utf8 : str -> bool) (n : nat) (layers : list (list entry)) (cfg : option image_config) (name : str) : looked :=
  match load_layers n true layers with
  | OutOfFuel => Crashed
  | Fail _ => NotFound
  | Ret t => look (check_executable utf8 n t) (img_wd cfg) name (img_path cfg)
  end.
