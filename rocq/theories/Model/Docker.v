(** pkg/dockerutil/docker.go: an image loaded into a Docker daemon while a function runs. *)
From Coq Require Import String Ascii List Bool ZArith.
From Verif.Model Require Import GoStr.
Import ListNotations.

(** The images of the daemon by their tags, as the text of the archive; the first entry for a tag counts. *)
Definition store : Type := list (str * str).
Fixpoint image_of (tag : str) (s : store) : option str :=
  match s with
  | [] => None
  | (t, i) :: s => if str_eqb tag t then Some i else image_of tag s
  end.
(** docker.go:15-18 newTag.  [valid] is whether name.NewTag accepts the text. *)
Definition tag_text (repo : str) (pid nanos : Z) : str :=
  $"ocibuild.local/" ++ repo ++ $":" ++ itoa pid ++ $"." ++ itoa nanos.

(** What WithImage does, in order *)
Inductive event : Type :=
| Load (stdin : str) (ok : bool)  (** docker image load, which has ended *)
| Call (tag : str)                (** fn *)
| Remove (tag : str) (ok : bool). (** docker image rm *)
Inductive outcome : Type := Done | Failed (why : nat) | Panicked.

(** What happens around it: whether StdinPipe, Start and Close succeed (Start fails if the context is
    done); after how many bytes writing the archive fails; whether the context is done, or docker
    cannot be run, when the image is to be removed; the daemon's commands; fn; and [others]: what other
    clients do to the daemon before the [n]th step. *)
Record around : Type := mkAround {
  a_valid : str -> bool;
  a_pipe : bool; a_start : bool; a_write : option nat; a_close : bool; a_rm : bool;
  a_load : str -> store -> store * bool;
  a_remove : str -> store -> store * bool;
  a_fn : str -> store -> store * outcome;
  a_others : nat -> store -> store
}.
(** docker.go:32-34, :26-30: the first deferred call, which runs last, also if fn panics *)
Definition finish (a : around) (tag : str) (tr : list event) (s : store) (res : outcome) : list event * store * outcome :=
  let set e := match res with Done => e | _ => res end in
  if a_rm a
  then let '(s, ok) := a_remove a tag (a_others a 3 s) in (tr ++ [Remove tag ok], a_others a 4 s, if ok then res else set (Failed 6))
  else (tr, a_others a 4 s, set (Failed 7)).
(** docker.go:20-61 WithImage, [archive tag] is what ociv1tarball.Write writes for the image.  The
    second deferred call (:42-45) closes the pipe and waits, so that "docker image load" has ended
    before what follows; it gets the bytes that were written.  Simplified: the error of a failing
    Close leaves the command with the whole archive. *)
Definition with_image (a : around) (repo : str) (pid nanos : Z) (archive : str -> str) (s : store) : list event * store * outcome :=
  let tag := tag_text repo pid nanos in
  if negb (a_valid a tag) then ([], s, Failed 0)
  else if negb (a_pipe a) then finish a tag [] s (Failed 1)
  else if negb (a_start a) then finish a tag [] s (Failed 2)
  else
    let load input := let '(s, ok) := a_load a input (a_others a 1 s) in ([Load input ok], s, ok) in
    match a_write a with
    | Some k => let '(tr, s, ok) := load (firstn k (archive tag)) in finish a tag tr s (Failed 3)
    | None =>
        let '(tr, s, ok) := load (archive tag) in
        if negb (a_close a) then finish a tag tr s (Failed 4)
        else if negb ok then finish a tag tr s (Failed 5)
        else let '(s, res) := a_fn a tag (a_others a 2 s) in finish a tag (tr ++ [Call tag]) s res
    end.
