(** Listing a directory that has entries which lead nowhere. *)
From Coq Require Import List Bool ZArith.
From Verif.Model Require Import GoStr Tar Squash VfsFS.
From Verif.Spec Require Import PathSpec SquashSpec VfsFSSpec.
Import ListNotations.

(** The results of calls on an open directory if the first ReadDir fails with
    [e], and further ones page through [rest]. *)
Fixpoint fails_first (e : err) (rest : list dirent) (closed : bool) (log : list (nat * call * result)) : Prop :=
  match log with
  | [] => True
  | (_, CReadDir _, r) :: log' =>
      if closed then r = RErr EClosed /\ fails_first e rest closed log'
      else r = RErr e /\ reads_dir rest closed log'
  | (_, CClose, r) :: log' => r = (if closed then RErr EClosed else ROk) /\ fails_first e rest true log'
  | (_, CRead _, r) :: log' => r = RErr EIsDir /\ fails_first e rest closed log'
  end.
(** Entries of the directory [d], each at most once *)
Definition some_entries (fs : fsys) (d : path) (l : list dirent) : Prop :=
  NoDup (map fst l) /\ forall x h, In (x, h) l -> exists n, fs (d ++ [x]) = Some n /\ shows n h.
