(** pkg/python/pypa/recording_installs, pkg/python/pep376: the hooks that record an
    installation. *)
From Coq Require Import String Ascii List Bool NArith ZArith.
From Verif.Model Require Import GoStr GoPath Pep440 Tar Stat Layer ConfigParser WheelFile Wheel DirectURL.
Import ListNotations.

(** ** filepath.Rel (standard library, UNIX) for two absolute paths, at component level *)
Fixpoint strip_common (a b : list str) : list str * list str :=
  match a, b with
  | x :: a', y :: b' => if str_eqb x y then strip_common a' b' else (a, b)
  | _, _ => (a, b)
  end.
Definition rel_abs (base targ : str) : str :=
  let '(b, t) := strip_common (clean_comps base) (clean_comps targ) in
  match repeat dotdot (length b) ++ t with
  | [] => dot
  | l => join $"/" l
  end.

(** ** encoding/csv Writer (standard library) with UseCRLF.  [space s]: the first rune of
    [s] is a space according to package unicode. *)
Definition cr : ascii := "013"%char.
Definition quote : ascii := """"%char.
Definition csv_special (c : ascii) : bool := byte_eqb c quote || byte_eqb c cr || byte_eqb c nl.
Definition csv_needs_quotes (space : str -> bool) (f : str) : bool :=
  match f with
  | [] => false
  | _ => str_eqb f $"\." || existsb (fun c => byte_eqb c "," || csv_special c) f || space f
  end.
Definition csv_byte (c : ascii) : str :=
  if byte_eqb c quote then [quote; quote]
  else if byte_eqb c cr then []
  else if byte_eqb c nl then [cr; nl]
  else [c].
Definition csv_field (space : str -> bool) (f : str) : str :=
  if csv_needs_quotes space f then quote :: concat (map csv_byte f) ++ [quote] else f.
Definition csv_row (space : str -> bool) (row : list str) : str := join $"," (map (csv_field space) row) ++ [cr; nl].
Definition csv_write (space : str -> bool) (rows : list (list str)) : str := concat (map (csv_row space) rows).

(** ** Rows *)
(** hashlib.go:14-31 *)
Definition guaranteed : list str := [$"md5"; $"sha1"; $"sha224"; $"sha256"; $"sha384"; $"sha512"].
(** recording_installs.go:30-57 recordFile; [None] is an error *)
Definition record_file (digest : str -> str -> str) (algo base : str) (r : vref) : option (list str) :=
  let name := rel_abs ($"/" ++ base) ($"/" ++ ref_full r) in
  match ref_record r with
  | Some (hash, size) => Some [name; hash; itoa size]
  | None =>
      if has_suffix $".pyc" name then Some [name; []; []]
      else match ref_content r with
           | Bytes text _ => Some [name; algo ++ $"=" ++ digest algo text; itoa (ref_size r)]
           | _ => None
           end
  end.
Fixpoint all_some {A} (l : list (option A)) : option (list A) :=
  match l with
  | [] => Some []
  | Some x :: l => match all_some l with Some l => Some (x :: l) | None => None end
  | None :: _ => None
  end.

(** ** Hooks *)
(** A new regular file with mode 0644 *)
Definition put (info name : str) (t : option Z) (text : str) (fs : vfs) : vfs :=
  let full := path_join [info; name] in set_key full (mem_reg full 420 t text) fs.
(** recording_installs.go:120-122 *)
Definition row_less (a b : list str) : bool := str_ltb (hd [] a) (hd [] b).
(** recording_installs.go:59-151 Record.  [range]: the order in which Go ranges over the
    map; [sort]: sort.Slice; [None] is an error. *)
Definition record_hook (space : str -> bool) (digest : str -> str -> str) (range : vfs -> vfs)
    (sort : (list str -> list str -> bool) -> list (list str) -> list (list str))
    (algo installer : str) (url : option direct_url) (t : option Z) (fs : vfs) (info : str) : option vfs :=
  let fs := put info $"INSTALLER" t (installer ++ [nl]) fs in
  let fs := match url with None => fs | Some u => put info $"direct_url.json" t (url_text u) fs end in
  let algo := match algo with [] => $"sha256" | _ => algo end in
  if negb (existsb (str_eqb algo) guaranteed) then None
  else
    match all_some (map (record_file digest algo (path_dir info)) (filter (fun r => negb (ref_dir r)) (map snd (range fs)))) with
    | None => None
    | Some rows =>
        let rows := sort row_less ([path_join [path_base info; $"RECORD"]; []; []] :: rows) in
        Some (put info $"RECORD" t (csv_write space rows) fs)
    end.
(** pep376/requested.go:17-71 RecordRequested *)
Definition requested_hook (requested : str) (t : option Z) (fs : vfs) (info : str) : option vfs :=
  Some (put info $"REQUESTED" t (match requested with [] => [] | _ => requested ++ [nl] end) fs).
(** misc.go:83-107 PostInstallHooks *)
Definition hook := option Z -> vfs -> str -> option vfs.
Fixpoint run_hooks (hooks : list hook) (t : option Z) (fs : vfs) (info : str) : option vfs :=
  match hooks with
  | [] => Some fs
  | h :: hooks => match h t fs info with Some fs => run_hooks hooks t fs info | None => None end
  end.
