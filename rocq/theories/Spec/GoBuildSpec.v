(** What "ocibuild layer gobuild --output" should do to its output file. *)
From Coq Require Import String Ascii List Bool ZArith.
From Verif.Model Require Import GoStr Tar Layer GoBuild.
From Verif.Spec Require Import LayerSpec.
Import ListNotations.
Local Open Scope nat_scope.

(** io.Copy writes the layer from the beginning, and all of it unless there is an error. *)
Definition copies (new : str) (w : world) : Prop :=
  (exists rest, new = concat (w_writes w) ++ rest) /\ (w_copy w = None -> concat (w_writes w) = new).
(** What a crash can leave behind: the file at the start or after one of the system calls *)
Definition crash_states (n : nat) (w : world) (file : option str) : list (option str) := file :: fst (gobuild n w file).
(** What is there at the end *)
Definition final (n : nat) (w : world) (file : option str) : option str := last (fst (gobuild n w file)) file.
(** The two layers are equal up to the times of modification and access. *)
Definition unchanged (w : world) (new old : str) : Prop :=
  same_items same_change_time (s_items (w_untar w new)) (s_items (w_untar w old)).
(** [b] was cut off while it was being read: in the headers after some entries of [a], or in the
    content of an entry. *)
Definition cut_off (a b : source) : Prop :=
  s_open b = None /\
  exists l l' rest, s_items a = l ++ rest /\ same_items same_change_time l l' /\ Forall (fun x => rd_err (snd x) = None) l' /\
  ((s_items b = l' /\ s_end b <> None) \/
   exists h r h' r' rest' tail, rest = (h, r) :: rest' /\ s_items b = l' ++ [(h', r')] /\ same_but_times h h' /\ same_change_time h h' /\
     bytes_of r = bytes_of r' ++ tail /\ rd_err r' <> None).

(** An example: one program of 11 bytes, a block of headers and one of contents. *)
Definition ex_stream (mtime : Z) (content : str) : source :=
  mkSource None [(mkHeader TypeReg $"usr/local/bin/x" [] 3 493 0 0 [] [] (Some mtime) None None 0 0 [] 0, mkReader [] content None)] None None.
Definition ex_untar (s : str) : source :=
  match s with
  | [] => mkSource None [] None None
  | ["T"%char; t; a; b; c] => ex_stream (Z.of_nat (nat_of_ascii t)) [a; b; c]
  | _ => mkSource None [] (Some 7) None
  end.
Definition ex_world (new : str) (pieces : list str) (copy : option nat) : world :=
  mkWorld (inr new) ex_untar (fun _ => None) None None pieces copy None.
