(** pkg/python/pypa/bdist/ioutil.go: the files of a wheel being installed. *)
From Coq Require Import String Ascii List Bool NArith ZArith.
From Verif.Model Require Import GoStr GoPath Tar Stat Layer ConfigParser.
Import ListNotations.
Local Open Scope N_scope.

(** ** archive/zip (standard library) *)
(** The fields of zip.FileHeader that are read or written; [z_modified] is what
    FileInfo().ModTime() gives. *)
Record zheader := mkZ {
  z_name : str;
  z_size : N;          (* UncompressedSize64 *)
  z_attrs : N;         (* ExternalAttrs *)
  z_creator : N;       (* CreatorVersion *)
  z_modified : option Z
}.
(** zip.unixModeToFileMode *)
Definition zip_unix_mode (m : N) : N :=
  let g := N.land m 511 in
  let t := N.land m ModeFmt in
  let g := if t =? ModeFmtBlockDevice then N.lor g go_device
           else if t =? ModeFmtCharDevice then N.lor (N.lor g go_device) go_char_device
           else if t =? ModeFmtDir then N.lor g go_dir
           else if t =? ModeFmtNamedPipe then N.lor g go_named_pipe
           else if t =? ModeFmtSymlink then N.lor g go_symlink
           else if t =? ModeFmtSocket then N.lor g go_socket
           else g in
  let g := copy_bit m ModePermSetGID go_setgid g in
  let g := copy_bit m ModePermSetUID go_setuid g in
  copy_bit m ModePermSticky go_sticky g.
(** zip.msdosModeToFileMode *)
Definition zip_msdos_mode (m : N) : N :=
  let g := if bit_set m 16 then N.lor go_dir 511 else 438 in
  if bit_set m 1 then N.ldiff g 146 else g.
(** zip.FileHeader.Mode: creators 3 and 19 are UNIX and macOS, 0, 11 and 14 are FAT, NTFS and VFAT *)
Definition zip_mode (h : zheader) : N :=
  let creator := N.shiftr (z_creator h) 8 in
  let m := if (creator =? 3) || (creator =? 19) then zip_unix_mode (N.shiftr (z_attrs h) 16)
           else if (creator =? 11) || (creator =? 14) || (creator =? 0) then zip_msdos_mode (z_attrs h)
           else 0 in
  if has_suffix $"/" (z_name h) then N.lor m go_dir else m.

(** An entry of the archive: its header and what File.Open gives *)
Record zfile := mkZFile { zf_header : zheader; zf_content : content }.

(** ** FileReferences *)
(** What fsutil.InMemFileReference and other references give; [m_mode] is a
    fs.FileMode, [m_sys] is what Sys() gives if that is a tar.Header *)
Record memfile := mkMem { m_full : str; m_mode : N; m_size : Z; m_mtime : option Z; m_sys : option header; m_content : content }.
(** ioutil.go:43-55 zipEntry; hack.go:16-24 withRecord around one; others *)
Inductive vref :=
| ZipRef (h : zheader) (c : content)
| RecRef (h : zheader) (c : content) (hash : str) (size : Z)
| MemRef (m : memfile).

(** ioutil.go:48, fileref_util.go:16 *)
Definition ref_full (r : vref) : str :=
  match r with ZipRef h _ | RecRef h _ _ _ => clean (z_name h) | MemRef m => m_full m end.
(** ioutil.go:50-55 *)
Definition ref_mode (r : vref) : N :=
  match r with ZipRef h _ | RecRef h _ _ _ => zip_mode h | MemRef m => m_mode m end.
Definition ref_dir (r : vref) : bool := bit_set (ref_mode r) go_dir.
Definition ref_size (r : vref) : Z :=
  match r with ZipRef h _ | RecRef h _ _ _ => Z.of_N (z_size h) | MemRef m => m_size m end.
Definition ref_mtime (r : vref) : option Z :=
  match r with ZipRef h _ | RecRef h _ _ _ => z_modified h | MemRef m => m_mtime m end.
Definition ref_content (r : vref) : content :=
  match r with ZipRef _ c | RecRef _ c _ _ => c | MemRef m => m_content m end.
(** hack.go:11-24: what a Recordable records *)
Definition ref_record (r : vref) : option (str * Z) :=
  match r with RecRef _ _ h s => Some (h, s) | _ => None end.

(** map[string]fsutil.FileReference *)
Definition vfs := list (str * vref).

(** (&tar.Header{...}).FileInfo() of a regular file or a directory, and the
    InMemFileReference around it *)
Definition mem_header (t : ascii) (name : str) (perm : N) (size : Z) (mtime : option Z) : header :=
  mkHeader t name [] size (Z.of_N perm) 0 0 [] [] mtime None None 0 0 [] 0.
Definition mem_reg (name : str) (perm : N) (mtime : option Z) (text : str) : vref :=
  let size := Z.of_nat (length text) in
  MemRef (mkMem name perm size mtime (Some (mem_header TypeReg name perm size mtime)) (Bytes text true)).
Definition mem_dir (name : str) (perm : N) (mtime : option Z) : vref :=
  MemRef (mkMem name (N.lor go_dir perm) 0 mtime (Some (mem_header TypeDir name perm 0 mtime)) (Bytes [] true)).

(** tar.FileInfoHeader (standard library) with an empty link; [sys] is what Sys()
    gives if that is a tar.Header.  Without the name, which all callers set, and
    without what a syscall.Stat_t would add. *)
Definition TypeChar : ascii := "3"%char.
Definition TypeBlock : ascii := "4"%char.
Definition TypeFifo : ascii := "6"%char.
Definition header_type (m : N) : option ascii :=
  if N.land m go_type_mask =? 0 then Some TypeReg
  else if bit_set m go_dir then Some TypeDir
  else if bit_set m go_symlink then Some TypeSymlink
  else if bit_set m go_device then Some (if bit_set m go_char_device then TypeChar else TypeBlock)
  else if bit_set m go_named_pipe then Some TypeFifo
  else None.
Definition header_mode (m : N) : N :=
  copy_bit m go_sticky 512 (copy_bit m go_setgid 1024 (copy_bit m go_setuid 2048 (N.land m 511))).
Definition file_info_header (m : N) (size : Z) (mtime : option Z) (sys : option header) : option header :=
  match header_type m with
  | None => None
  | Some t =>
      let size := if N.land m go_type_mask =? 0 then size else 0%Z in
      let mode := Z.of_N (header_mode m) in
      Some match sys with
           | None => mkHeader t [] [] size mode 0 0 [] [] mtime None None 0 0 [] 0
           | Some s =>
               let '(t, size, link) := if byte_eqb (th_type s) TypeLink then (TypeLink, 0%Z, th_link s) else (t, size, []) in
               mkHeader t [] link size mode (th_uid s) (th_gid s) (th_uname s) (th_gname s) mtime (th_atime s) (th_ctime s)
                        0 0 (th_xattrs s) 0
           end
  end.
Definition ref_header (r : vref) : option header :=
  file_info_header (ref_mode r) (ref_size r) (ref_mtime r) (match r with MemRef m => m_sys m | _ => None end).
