(** pkg/python/py_compile.go:120-124: the arguments of concurrent calls of one Compiler. *)
From Coq Require Import String Ascii List Bool Arith.
From Verif.Model Require Import GoStr.
Import ListNotations.

(** "append(cmdline[1:], five strings)" writes behind the elements of cmdline if the array has room
    for five more, and makes a new array otherwise; exec.Command then copies the elements.  The array
    belongs to the caller of ExternalCompiler and is the same for all calls of the Compiler; [mem] is
    what is in it behind cmdline.  Each call writes and reads one string at a time; [pc] counts.
    Simplified: the reads and writes of single strings are atomic, and each call sees all earlier
    writes. *)
Definition items (tmp : str) : list str := [$"-s"; tmp; $"-p"; $"/"; tmp].
Record calls : Type := mkCalls { mem : list str; pc : nat -> nat; got : nat -> list str }.
Definition upd {A} (f : nat -> A) (i : nat) (a : A) : nat -> A := fun j => if Nat.eqb j i then a else f j.
Fixpoint set_nth (k : nat) (x : str) (l : list str) : list str :=
  match k, l with
  | _, [] => []
  | O, _ :: l => x :: l
  | S k, y :: l => y :: set_nth k x l
  end.
(** The call with number [i], which has the temporary directory [tmp i], takes a step. *)
Definition call_step (tmp : nat -> str) (c : calls) (i : nat) : calls :=
  if length (mem c) <? 5 then mkCalls (mem c) (upd (pc c) i 10) (upd (got c) i (items (tmp i)))
  else if pc c i <? 5 then mkCalls (set_nth (pc c i) (nth (pc c i) (items (tmp i)) []) (mem c)) (upd (pc c) i (S (pc c i))) (got c)
  else if pc c i <? 10 then mkCalls (mem c) (upd (pc c) i (S (pc c i))) (upd (got c) i (got c i ++ [nth (pc c i - 5) (mem c) []]))
  else c.
(** A schedule: which call takes the next step *)
Definition call_run (tmp : nat -> str) (room : list str) (sched : list nat) : calls :=
  fold_left (call_step tmp) sched (mkCalls room (fun _ => 0) (fun _ => [])).
