(** pkg/dir/dir.go: a layer from a directory. *)
From Coq Require Import String Ascii List Bool ZArith.
From Verif.Model Require Import GoStr GoPath Tar Layer.
Import ListNotations.
Open Scope Z_scope.

(** What the system calls on one file give: its device and inode number, its
    tar.FileInfoHeader (an error for sockets), os.Readlink, and its content. *)
Record dinfo : Type := mkInfo {
  di_id : Z * Z;
  di_header : option header;
  di_readlink : option str;
  di_content : content
}.
(** The files below a directory on disk.  [DBad] cannot be lstat'ed; [readable]
    says whether the names in a directory can be read.  The tree does not change
    while the layer is made.  Names have no slash and are not "." or ".."
    (operating system). *)
Inductive dnode : Type :=
  | DBad
  | DFile (i : dinfo)
  | DDir (i : dinfo) (readable : bool) (children : list (str * dnode)).

(** One call of the callback of filepath.Walk: with an error, or with a file,
    given by its path relative to the top, as components. *)
Inductive wstep : Type := WErr | WFile (p : list str) (i : dinfo).
Section walk.
  (** sort.Strings in readDirNames, on names with what is below them *)
  Context (sort : (str * list wstep -> str * list wstep -> bool) -> list (str * list wstep) -> list (str * list wstep)).
  Definition walk_less (a b : str * list wstep) : bool := str_ltb (fst a) (fst b).
  (** filepath.Walk (standard library): the calls of the callback if none returns
      an error.  An error given to this callback ends the walk (dir.go:77-79). *)
  Fixpoint walk (p : list str) (d : dnode) : list wstep :=
    match d with
    | DBad => [WErr]
    | DFile i => [WFile p i]
    | DDir i readable ch =>
        if readable then
          let outs := map (fun kc => (fst kc, walk (p ++ [fst kc]) (snd kc))) ch in
          WFile p i :: flat_map snd (sort walk_less outs)
        else [WErr]
    end.
End walk.

(** dir.go:26-32 Ownership, dir.go:18-24 Prefix *)
Record ownership : Type := mkOwner { o_uid : Z; o_uname : str; o_gid : Z; o_gname : str }.
Record prefix : Type := mkPrefix { px_name : str; px_mode : Z; px_owner : ownership }.

(** dir.go:55-58: the directories above, deepest first; each turn of the loop
    takes one unit of fuel *)
Fixpoint prefix_dirs (n : nat) (dir : str) : option (list str) :=
  if str_eqb dir dot then Some []
  else match n with
       | O => None
       | S n => option_map (cons dir) (prefix_dirs n (path_dir dir))
       end.
(** dir.go:52-54 and 60-69 *)
Definition prefix_header (px : prefix) (clamp_time : option Z) (name : str) : header :=
  mkHeader TypeDir name [] 0 (if px_mode px =? 0 then 493 else px_mode px)
           (o_uid (px_owner px)) (o_gid (px_owner px)) (o_uname (px_owner px)) (o_gname (px_owner px))
           clamp_time None None 0 0 [] 0.

(** dir.go:105-106, 111 *)
Definition with_link (h : header) (t : ascii) (link : str) : header :=
  mkHeader t (th_name h) link (th_size h) (th_mode h) (th_uid h) (th_gid h) (th_uname h)
           (th_gname h) (th_mtime h) (th_atime h) (th_ctime h) (th_devmajor h) (th_devminor h)
           (th_xattrs h) (th_format h).
(** dir.go:128-141 *)
Definition chown_header (chown : option ownership) (h : header) : header :=
  match chown with
  | None => h
  | Some o =>
      mkHeader (th_type h) (th_name h) (th_link h) (th_size h) (th_mode h)
               (if 0 <=? o_uid o then o_uid o else th_uid h) (if 0 <=? o_gid o then o_gid o else th_gid h)
               (if str_eqb (o_uname o) [] then th_uname h else o_uname o)
               (if str_eqb (o_gname o) [] then th_gname h else o_gname o)
               (th_mtime h) (th_atime h) (th_ctime h) (th_devmajor h) (th_devminor h) (th_xattrs h) (th_format h)
  end.
(** os.SameFile (standard library) *)
Definition same_file (a b : Z * Z) : bool := (fst a =? fst b) && (snd a =? snd b).

Section dir.
  Context (encodable : header -> bool).
  (** dir.go:125-154.  WriteHeader keeps a copy of the header, so the changes of
      dir.go:128-141 come too late for it.  Simplified as [write_entry]. *)
  Definition write_file (chown : option ownership) (h : header) (c : content) : entry + lerr :=
    if negb (encodable h) then inr LHeader
    else if byte_eqb (th_type (chown_header chown h)) TypeReg then
      match c with
      | OpenErr => inr LOpen
      | ReadErr => inr LRead
      | Bytes s close_ok =>
          if th_size h <? Z.of_nat (length s) then inr LTooLong
          else if negb close_ok then inr LClose
          else if Z.of_nat (length s) <? th_size h then inr LShort
          else inl (tar_written h, s)
      end
    else inl (tar_written h, []).
  (** dir.go:103-109 the first logged file that is the same *)
  Definition logged (id : Z * Z) (log : list (str * (Z * Z))) : option str :=
    option_map fst (find (fun e => same_file (snd e) id) log).
  (** dir.go:80-90.  filepath.Rel and ToSlash give the components of the path,
      joined. *)
  Definition entry_name (px : option prefix) (p : list str) : str :=
    match px with
    | None => join $"/" p
    | Some px => path_join [px_name px; join $"/" p]
    end.
  (** dir.go:98-124 the header that is written *)
  Definition dir_header (clamp_time : option Z) (log : list (str * (Z * Z))) (name : str) (i : dinfo) : header + lerr :=
    match di_header i with
    | None => inr LInfo
    | Some h0 =>
        let h := with_name h0 name in
        let h := match logged (di_id i) log with Some first => with_link h TypeLink first | None => h end in
        if byte_eqb (th_type h) TypeSymlink then
          match di_readlink i with
          | None => inr LLink
          | Some l => inl (clamp_header clamp_time (with_link h (th_type h) l))
          end
        else inl (clamp_header clamp_time h)
    end.
  (** dir.go:76-156 the calls of the callback *)
  Fixpoint visit (px : option prefix) (chown : option ownership) (clamp_time : option Z)
      (log : list (str * (Z * Z))) (steps : list wstep) : layer_result :=
    match steps with
    | [] => LayerOk []
    | WErr :: _ => LayerErr LWalk
    | WFile [] _ :: rest => visit px chown clamp_time log rest
    | WFile p i :: rest =>
        let name := entry_name px p in
        match dir_header clamp_time log name i with
        | inr e => LayerErr e
        | inl h =>
            match write_file chown h (di_content i) with
            | inr e => LayerErr e
            | inl x =>
                match visit px chown clamp_time (log ++ [(name, di_id i)]) rest with
                | LayerOk out => LayerOk (x :: out)
                | bad => bad
                end
            end
        end
    end.
  (** dir.go:59-73 *)
  Fixpoint write_prefix (px : prefix) (clamp_time : option Z) (dirs : list str) : list entry + lerr :=
    match dirs with
    | [] => inl []
    | d :: dirs' =>
        match write_entry encodable (prefix_header px clamp_time d) OpenErr with
        | inr e => inr e
        | inl x => match write_prefix px clamp_time dirs' with inl l => inl (x :: l) | inr e => inr e end
        end
    end.
  (** dir.go:34-169 LayerFromDir.  The result is the list of entries.  Setting
      prefix.Mode in the caller's structure is not modelled. *)
  Definition layer_from_dir (n : nat) sort (root : dnode) (px : option prefix) (chown : option ownership)
      (clamp_time : option Z) : layer_result :=
    match (match px with None => Some [] | Some px => prefix_dirs n (px_name px) end) with
    | None => LayerFuel
    | Some dirs =>
        match (match px with None => inl [] | Some px => write_prefix px clamp_time (rev dirs) end) with
        | inr e => LayerErr e
        | inl above =>
            match visit px chown clamp_time [] (walk sort [] root) with
            | LayerOk out => LayerOk (above ++ out)
            | bad => bad
            end
        end
    end.
End dir.
