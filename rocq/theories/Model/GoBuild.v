(** cmd_layer_gobuild.go: the output file of "ocibuild layer gobuild --output". *)
From Coq Require Import String Ascii List Bool ZArith.
From Verif.Model Require Import GoStr Tar Layer.
Import ListNotations.

(** What the rest of the world does.  Simplified: the output is a regular file or missing, and
    nobody else writes to it. *)
Record world : Type := mkWorld {
  w_build : nat + str;           (* gobuild.LayerFromGo: an error, or the uncompressed layer *)
  w_untar : str -> source;       (* how a file is read as the tar stream of a layer *)
  w_open : str -> option nat;    (* fsutil.OpenLayer on a file with this content: the error *)
  w_remove : option nat;         (* os.Remove: the error *)
  w_create : option nat;         (* os.OpenFile: the error *)
  w_writes : list str;           (* io.Copy: what is written, piece by piece, *)
  w_copy : option nat;           (*   and the error *)
  w_close : option nat           (* Close: the error *)
}.
Inductive outcome : Type := Done | Failed (e : nat) | Endless.
(** The pieces are appended to the file one by one: its states *)
Fixpoint file_states (sofar : str) (pieces : list str) : list (option str) :=
  match pieces with
  | [] => []
  | p :: pieces => Some (sofar ++ p) :: file_states (sofar ++ p) pieces
  end.
Definition first_err (a b : option nat) : outcome :=
  match a, b with Some e, _ | None, Some e => Failed e | None, None => Done end.
(** cmd_layer_gobuild.go:62-80, fsutil/write.go:9-23 replace the output: the states of the file after
    each system call that changes it.  os.Remove of a missing file is not an error. *)
Definition replace_output (w : world) (file : option str) : list (option str) * outcome :=
  match file, w_remove w with
  | Some _, Some e => ([], Failed e)
  | _, _ =>
      let removed := match file with Some _ => [None] | None => [] end in
      match w_create w with
      | Some e => (removed, Failed e)
      | None => (removed ++ Some [] :: file_states [] (w_writes w), first_err (w_copy w) (w_close w))
      end
  end.
(** cmd_layer_gobuild.go:32-81 RunE with --output, for a file with the given content ([None]: missing);
    [n] is the fuel of the comparison *)
Definition gobuild (n : nat) (w : world) (file : option str) : list (option str) * outcome :=
  match w_build w with
  | inl e => ([], Failed e)
  | inr new =>
      match file with
      | None => replace_output w file
      | Some old =>
          match w_open w old with
          | Some e => ([], Failed e)
          | None =>
              match layers_equal n (w_untar w new) (w_untar w old) with
              | CmpFuel => ([], Endless)
              | CmpErr e => ([], Failed e)
              | Same => ([], Done)
              | Differ => replace_output w file
              end
          end
      end
  end.
