(** Kinds of versions, by their spelling. *)
From Coq Require Import String Ascii List Bool ZArith.
From Verif.Model Require Import GoStr Pep440.
From Verif.Spec Require Import Pep440Spec.
Import ListNotations.

(** Only digits, dots and an exclamation mark: nothing but an epoch and a release *)
Definition release_only (s : str) : Prop := Forall (fun c => In c (list_ascii_of_string "0123456789.!")) s.
(** One of the letters a, b, c, d: "a", "b" and "rc" of pre-releases, "dev" of development releases, but not "post" *)
Definition abcd (s : str) : Prop := Exists (fun c => In c (list_ascii_of_string "abcd")) s.
(** [s] is an epoch or nothing, then [l] with dots between, then something that does not continue the numbers *)
Definition numbered (s : str) (l : list Z) : Prop := exists ep tail,
  s = ep ++ join $"." (map itoa l) ++ tail /\ (ep = [] \/ exists n, ep = itoa n ++ $"!") /\ l <> [] /\
  (forall c x, tail = c :: x \/ tail = "."%char :: c :: x -> ~ In c (list_ascii_of_string "0123456789")).
(** The version without "a1", "b1", "rc1" and ".dev1" *)
Definition released (v : version) : version :=
  mkVersion (mkPublic (epoch (pub v)) (release (pub v)) None (post (pub v)) None) (local v).
