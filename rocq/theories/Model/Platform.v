(** pkg/python/platform.go *)
From Coq Require Import String Ascii List Bool ZArith.
From Verif.Model Require Import GoStr GoPath Regex Pep440.
Import ListNotations.

(** platform.go:60-69 *)
Record scheme := mkScheme { s_purelib : str; s_platlib : str; s_headers : str; s_scripts : str; s_data : str }.
(** platform.go:11-27, without VersionInfo, MagicNumber, Tags and PyCompile *)
Record platform := mkPlatform {
  pl_console : str;
  pl_graphical : str;
  pl_scheme : scheme;
  pl_uid : Z;
  pl_gid : Z;
  pl_uname : str;
  pl_gname : str
}.
(** filepath.IsAbs on UNIX *)
Definition scheme_paths (s : scheme) : list str := [s_purelib s; s_platlib s; s_headers s; s_scripts s; s_data s].
(** platform.go:72-99 Init; [None] is an error *)
Definition plat_init (pl : platform) : option platform :=
  match pl_console pl, pl_graphical pl with
  | [], [] => None
  | con, gra =>
      let con' := match con with [] => gra | _ => con end in
      let gra' := match gra with [] => con' | _ => gra end in
      if forallb is_abs (scheme_paths (pl_scheme pl))
      then Some (mkPlatform con' gra' (pl_scheme pl) (pl_uid pl) (pl_gid pl) (pl_uname pl) (pl_gname pl))
      else None
  end.

(** platform.go:29-35 *)
Record version_info := mkVI { vi_major : Z; vi_minor : Z; vi_micro : Z; vi_level : str; vi_serial : Z }.
(** platform.go:37-58 PEP440; the result has no local part *)
Definition vi_pep440 (vi : version_info) : option public :=
  let release := [vi_major vi; vi_minor vi; vi_micro vi] in
  let with_pre p := Some (mkPublic 0 release p None None) in
  if str_eqb (vi_level vi) $"alpha" then with_pre (Some ($"a", 0%Z))
  else if str_eqb (vi_level vi) $"beta" then with_pre (Some ($"b", 0%Z))
  else if str_eqb (vi_level vi) $"candidate" then with_pre (Some ($"rc", 0%Z))
  else if str_eqb (vi_level vi) $"final" then with_pre None
  else None.
