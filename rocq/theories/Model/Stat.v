(** pkg/python/stat.go and zip.go: file modes and attributes as numbers. *)
From Coq Require Import String Ascii List Bool NArith.
From Verif.Model Require Import GoStr.
Import ListNotations.
Open Scope N_scope.

(** Unsigned integers of [k] bits; conversion to a smaller type *)
Definition truncate (k x : N) : N := N.land x (N.ones k).
Definition bit_set (x mask : N) : bool := negb (N.land x mask =? 0).
(** [if x&mask != 0 { y |= flag }] *)
Definition copy_bit (x mask flag y : N) : N := if bit_set x mask then N.lor y flag else y.

(** stat.go:17-56, in octal there *)
Definition ModeFmt : N := 61440.
Definition ModeFmtNamedPipe : N := 4096.
Definition ModeFmtCharDevice : N := 8192.
Definition ModeFmtDir : N := 16384.
Definition ModeFmtBlockDevice : N := 24576.
Definition ModeFmtRegular : N := 32768.
Definition ModeFmtSymlink : N := 40960.
Definition ModeFmtSocket : N := 49152.
Definition ModeFmtWhiteout : N := 57344.
Definition ModePermSetUID : N := 2048.
Definition ModePermSetGID : N := 1024.
Definition ModePermSticky : N := 512.
(** io/fs Mode constants (standard library) *)
Definition go_dir : N := 2 ^ 31.
Definition go_symlink : N := 2 ^ 27.
Definition go_device : N := 2 ^ 26.
Definition go_named_pipe : N := 2 ^ 25.
Definition go_socket : N := 2 ^ 24.
Definition go_setuid : N := 2 ^ 23.
Definition go_setgid : N := 2 ^ 22.
Definition go_char_device : N := 2 ^ 21.
Definition go_sticky : N := 2 ^ 20.
Definition go_irregular : N := 2 ^ 19.
Definition go_type_mask : N :=
  N.lor go_dir (N.lor go_symlink (N.lor go_named_pipe (N.lor go_socket (N.lor go_device (N.lor go_char_device go_irregular))))).

(** stat.go:59-95 *)
Definition to_go (m : N) : N :=
  let g := N.land m 511 in
  let g := copy_bit m ModePermSetGID go_setgid g in
  let g := copy_bit m ModePermSetUID go_setuid g in
  let g := copy_bit m ModePermSticky go_sticky g in
  let t := N.land m ModeFmt in
  if t =? ModeFmtBlockDevice then N.lor g go_device
  else if t =? ModeFmtCharDevice then N.lor g (N.lor go_device go_char_device)
  else if t =? ModeFmtDir then N.lor g go_dir
  else if t =? ModeFmtNamedPipe then N.lor g go_named_pipe
  else if t =? ModeFmtSymlink then N.lor g go_symlink
  else if t =? ModeFmtRegular then g
  else if t =? ModeFmtSocket then N.lor g go_socket
  else N.lor g go_irregular.
(** stat.go:98-132 *)
Definition mode_from_go (g : N) : N :=
  let m := truncate 16 (N.land g 511) in
  let m := copy_bit g go_setgid ModePermSetGID m in
  let m := copy_bit g go_setuid ModePermSetUID m in
  let m := copy_bit g go_sticky ModePermSticky m in
  let t := N.land g go_type_mask in
  if t =? go_device then N.lor m ModeFmtBlockDevice
  else if t =? N.lor go_device go_char_device then N.lor m ModeFmtCharDevice
  else if t =? go_dir then N.lor m ModeFmtDir
  else if t =? go_named_pipe then N.lor m ModeFmtNamedPipe
  else if t =? go_symlink then N.lor m ModeFmtSymlink
  else if t =? 0 then N.lor m ModeFmtRegular
  else if t =? go_socket then N.lor m ModeFmtSocket
  else m.
(** stat.go:137-139, 144-146 *)
Definition is_dir (m : N) : bool := N.land m ModeFmt =? ModeFmtDir.
Definition is_regular (m : N) : bool := N.land m ModeFmt =? ModeFmtRegular.
(** stat.go:155-179; out of range is impossible for 16 bits *)
Definition at_index (s : str) (i : N) : ascii := nth (N.to_nat i) s "!"%char.
Definition mode_string (m : N) : str :=
  [ at_index $"?pc?d?b?-?l?s?w?" (N.shiftr m 12);
    at_index $"-r" (N.land (N.shiftr m 8) 1);
    at_index $"-w" (N.land (N.shiftr m 7) 1);
    at_index $"-xSs" (N.lor (N.land (N.shiftr m 6) 1) (N.land (N.shiftr m 10) 2));
    at_index $"-r" (N.land (N.shiftr m 5) 1);
    at_index $"-w" (N.land (N.shiftr m 4) 1);
    at_index $"-xSs" (N.lor (N.land (N.shiftr m 3) 1) (N.land (N.shiftr m 9) 2));
    at_index $"-r" (N.land (N.shiftr m 2) 1);
    at_index $"-w" (N.land (N.shiftr m 1) 1);
    at_index $"-xTt" (N.lor (N.land (N.shiftr m 0) 1) (N.land (N.shiftr m 8) 2)) ].

(** zip.go:12-22: the constant with the given iota *)
Definition dos_attribute (iota : N) : N := N.shiftl 1 iota.
(** stat.go:188-215: the constants in order, blank and unused ones included.
    iota counts from the start of the block. *)
Definition file_attribute (iota : N) : N := if iota <? 8 then dos_attribute iota else N.shiftl 1 (8 + iota).
Definition FileAttributeReadonly := file_attribute 0.
Definition FileAttributeHidden := file_attribute 1.
Definition FileAttributeSystem := file_attribute 2.
Definition FileAttributeDirectory := file_attribute 4.
Definition FileAttributeArchive := file_attribute 5.
Definition FileAttributeDevice := file_attribute 6.
Definition FileAttributeNormal := file_attribute 7.
Definition FileAttributeTemporary := file_attribute 8.
Definition FileAttributeSparseFile := file_attribute 9.
Definition FileAttributeReparsePoint := file_attribute 10.
Definition FileAttributeCompressed := file_attribute 11.
Definition FileAttributeOffline := file_attribute 12.
Definition FileAttributeNotContentIndexed := file_attribute 13.
Definition FileAttributeEncrypted := file_attribute 14.
Definition FileAttributeIntegrityStream := file_attribute 15.
Definition FileAttributeVirtual := file_attribute 16.
Definition FileAttributeNoScrubData := file_attribute 17.
Definition FileAttributeRecallOnOpen := file_attribute 18.
Definition FileAttributeRecallOnDataAccess := file_attribute 20.
(** stat.go:218-220 *)
Definition to_dos (fa : N) : N := truncate 8 (N.land fa 55).

(** zip.go:40-44 *)
Record zip_attributes : Type := mkZipAttr { za_unix : N; za_unused : N; za_dos : N }.
(** zip.go:47-49 *)
Definition zip_raw (a : zip_attributes) : N :=
  N.lor (N.lor (truncate 32 (N.shiftl (za_unix a) 16)) (truncate 32 (N.shiftl (za_unused a) 8))) (za_dos a).
(** zip.go:53-59 *)
Definition zip_parse (raw : N) : zip_attributes :=
  mkZipAttr (truncate 16 (N.shiftr raw 16)) (truncate 8 (N.shiftr raw 8)) (truncate 8 raw).
