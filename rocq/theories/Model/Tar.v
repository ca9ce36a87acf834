(** The tar entries that ocibuild reads and writes, after decoding.  The byte
    format of archive/tar is not modelled: a layer is the list of its entries. *)
From Coq Require Import String Ascii List Bool ZArith.
From Verif.Model Require Import GoStr.
Import ListNotations.

(** archive/tar Header (standard library).  Times are nanoseconds since the
    epoch; [None] is the zero time.Time.  [th_xattrs] stands for PAXRecords and
    the deprecated Xattrs, [th_format] for Format. *)
Record header : Type := mkHeader {
  th_type : ascii;
  th_name : str;
  th_link : str;
  th_size : Z;
  th_mode : Z;
  th_uid : Z;
  th_gid : Z;
  th_uname : str;
  th_gname : str;
  th_mtime : option Z;
  th_atime : option Z;
  th_ctime : option Z;
  th_devmajor : Z;
  th_devminor : Z;
  th_xattrs : list (str * str);
  th_format : Z
}.
(** archive/tar Type* constants *)
Definition TypeReg : ascii := "0"%char.
Definition TypeLink : ascii := "1"%char.
Definition TypeSymlink : ascii := "2"%char.
Definition TypeDir : ascii := "5"%char.

(** [hdr.Name = name] on a copy of the header *)
Definition with_name (h : header) (name : str) : header :=
  mkHeader (th_type h) name (th_link h) (th_size h) (th_mode h) (th_uid h) (th_gid h) (th_uname h)
           (th_gname h) (th_mtime h) (th_atime h) (th_ctime h) (th_devmajor h) (th_devminor h)
           (th_xattrs h) (th_format h).
(** &tar.Header{Typeflag: t, Mode: mode} *)
Definition plain_header (t : ascii) (mode : Z) : header :=
  mkHeader t [] [] 0 mode 0 0 [] [] None None None 0 0 [] 0.

(** One entry with its content. *)
Definition entry : Type := (header * str)%type.
