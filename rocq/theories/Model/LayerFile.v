(** pkg/fsutil/open.go and write.go: files that are read as layers, and layers that are written. *)
From Coq Require Import String Ascii List Bool Arith.
From Verif.Model Require Import GoStr.
Import ListNotations.

(** A file on the host.  [Special]: pipes and the like; what is read is gone, unless reading fails. *)
Inductive hfile : Type :=
| NoFile
| Regular (readable : bool) (text : str)
| Special (readable : bool) (text : str).
(** os.Open and reading to the end, os.ReadFile *)
Definition read_all (f : hfile) : option str * hfile :=
  match f with
  | NoFile => (None, f)
  | Regular ok text => (if ok then Some text else None, f)
  | Special ok text => if ok then (Some text, Special ok []) else (None, f)
  end.
(** open.go:13-41 PathOpener: an error for ever, the file opened anew each time, or what was read once *)
Inductive opener : Type := Never | Reopen | Held (text : option str).
Definition path_opener (f : hfile) : opener * hfile :=
  match f with
  | NoFile => (Never, f)
  | Regular _ _ => (Reopen, f)
  | Special _ _ => let '(text, f) := read_all f in (Held text, f)
  end.
Definition open_with (o : opener) (f : hfile) : option str * hfile :=
  match o with
  | Never => (None, f)
  | Reopen => read_all f
  | Held text => (text, f)
  end.
(** All that the opener gives while [others n] happens to the file before the [n]th use *)
Fixpoint uses (o : opener) (others : nat -> hfile -> hfile) (n count : nat) (f : hfile) : list (option str) :=
  match count with
  | O => []
  | S count => let '(text, f) := open_with o (others n f) in text :: uses o others (S n) count f
  end.

(** write.go:9-23 WriteLayer: what is written and whether it succeeds.  [content]: what Uncompressed
    gives, [None] for an error; [read_fails], [write_fails]: after how many bytes the reader and the
    writer fail; [close_ok]: whether closing the reader succeeds. *)
Definition write_layer (content : option str) (read_fails write_fails : option nat) (close_ok : bool) : str * bool :=
  match content with
  | None => ([], false)
  | Some text =>
      let shown := match read_fails with Some k => firstn k text | None => text end in
      let taken := match write_fails with Some k => if k <? length shown then firstn k shown else shown | None => shown end in
      let wrote := match write_fails with Some k => negb (k <? length shown) | None => true end in
      let read := match read_fails with Some _ => false | None => true end in
      (taken, wrote && read && close_ok)
  end.

(** cmd_layer_squash.go:20-38: the files, each opened once by OpenLayer ([looks] more times while the
    layer is made: the kind of compression and the digests) and once more to be squashed.  [squash]: the
    bytes of the layer that squash.Squash makes of the layers with these bytes. *)
Definition open_layer (looks : nat) (f : hfile) : option (opener * hfile) :=
  let '(o, f) := path_opener f in
  if existsb (fun t => match t with None => true | Some _ => false end) (uses o (fun _ f => f) 0 looks f) then None else Some (o, f).
Fixpoint open_layers (looks : nat) (files : list hfile) : option (list (opener * hfile)) :=
  match files with
  | [] => Some []
  | f :: files => match open_layer looks f, open_layers looks files with Some o, Some l => Some (o :: l) | _, _ => None end
  end.
Fixpoint read_layers (l : list (opener * hfile)) : option (list str) :=
  match l with
  | [] => Some []
  | (o, f) :: l => match fst (open_with o f), read_layers l with Some t, Some r => Some (t :: r) | _, _ => None end
  end.
Definition squash_command (looks : nat) (squash : list str -> option str) (files : list hfile) (write_fails : option nat) : str * bool :=
  match open_layers looks files with
  | None => ([], false)
  | Some l =>
      match read_layers l with
      | None => ([], false)
      | Some texts => match squash texts with None => ([], false) | Some out => write_layer (Some out) None write_fails true end
      end
  end.
