(** File modes by their bits, as POSIX numbers and shows them. *)
From Coq Require Import String Ascii List Bool NArith.
From Verif.Model Require Import GoStr.
Import ListNotations.
Open Scope N_scope.

Inductive file_type : Type := Fifo | CharDev | Dir | BlockDev | Regular | Symlink | Socket.
Definition all_types : list file_type := [Fifo; CharDev; Dir; BlockDev; Regular; Symlink; Socket].
(** The type as the top four bits of a UNIX mode (sys/stat.h on Linux). *)
Definition unix_type (t : file_type) : N :=
  match t with Fifo => 1 | CharDev => 2 | Dir => 4 | BlockDev => 6 | Regular => 8 | Symlink => 10 | Socket => 12 end.
(** The bits of the type in io/fs.FileMode: bit 31 directory, 27 symbolic link, 26
    device, 25 named pipe, 24 socket, 21 character device. *)
Definition go_type_bits (t : file_type) : list N :=
  match t with
  | Fifo => [25] | CharDev => [26; 21] | Dir => [31] | BlockDev => [26] | Regular => [] | Symlink => [27] | Socket => [24]
  end.
Definition sum_bits (l : list N) : N := fold_right (fun b s => 2 ^ b + s) 0 l.
(** The number with the permissions [perm] (nine bits) and the three other flags,
    in both representations. *)
Definition flag (b : bool) (x : N) : N := if b then x else 0.
Definition unix_mode (t : N) (setuid setgid sticky : bool) (perm : N) : N :=
  4096 * t + flag setuid 2048 + flag setgid 1024 + flag sticky 512 + perm.
Definition go_mode (t : N) (setuid setgid sticky : bool) (perm : N) : N :=
  t + flag setuid (2 ^ 23) + flag setgid (2 ^ 22) + flag sticky (2 ^ 20) + perm.

(** ls -l *)
Definition type_letter (t : N) : ascii :=
  match t with
  | 1 => "p" | 2 => "c" | 4 => "d" | 6 => "b" | 8 => "-" | 10 => "l" | 12 => "s" | 14 => "w" | _ => "?"
  end%char.
Definition triple (r w x special : bool) (low up : ascii) : str :=
  [if r then "r"%char else "-"%char; if w then "w"%char else "-"%char;
   match x, special with
   | false, false => "-"%char
   | true, false => "x"%char
   | true, true => low
   | false, true => up
   end].
Definition ls_text (m : N) : str :=
  let b := N.testbit m in
  type_letter (m / 4096) ::
  triple (b 8) (b 7) (b 6) (b 11) "s" "S" ++ triple (b 5) (b 4) (b 3) (b 10) "s" "S" ++ triple (b 2) (b 1) (b 0) (b 9) "t" "T".

(** The Windows API (winnt.h). *)
Definition windows_attributes : list (str * N) :=
  [ ($"READONLY", 2 ^ 0); ($"HIDDEN", 2 ^ 1); ($"SYSTEM", 2 ^ 2); ($"DIRECTORY", 2 ^ 4); ($"ARCHIVE", 2 ^ 5);
    ($"DEVICE", 2 ^ 6); ($"NORMAL", 2 ^ 7); ($"TEMPORARY", 2 ^ 8); ($"SPARSE_FILE", 2 ^ 9); ($"REPARSE_POINT", 2 ^ 10);
    ($"COMPRESSED", 2 ^ 11); ($"OFFLINE", 2 ^ 12); ($"NOT_CONTENT_INDEXED", 2 ^ 13); ($"ENCRYPTED", 2 ^ 14);
    ($"INTEGRITY_STREAM", 2 ^ 15); ($"VIRTUAL", 2 ^ 16); ($"NO_SCRUB_DATA", 2 ^ 17); ($"RECALL_ON_OPEN", 2 ^ 18);
    ($"RECALL_ON_DATA_ACCESS", 2 ^ 22) ].
