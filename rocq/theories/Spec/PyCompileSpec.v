(** What compiling Python files on the host should do. *)
From Coq Require Import String Ascii List Bool NArith ZArith Permutation.
From Verif.Model Require Import GoStr GoPath Layer Platform WheelFile Wheel PyCompile.
From Verif.Spec Require Import PathSpec WheelSpec WheelExamples.
Import ListNotations.

(** [p] is the directory [dir] or something in it. *)
Definition beneath (dir p : hpath) : Prop := exists q, p = dir ++ q.
(** [tmp] is the text of [dir], an absolute path below the root. *)
Definition names_dir (tmp : str) (dir : hpath) : Prop := dir <> [] /\ plain_path dir /\ tmp = $"/" ++ join $"/" dir.
(** Nothing is there yet, but the directories above are. *)
Definition vacant (dir : hpath) (fs : hfs) : Prop :=
  (forall p, beneath dir p -> look p fs = None) /\
  (forall a b, a <> [] -> b <> [] -> dir = a ++ b -> look a fs = Some NDir).
(** The program touches only what is in [dir]. *)
Definition keeps_to (dir : hpath) (program : command -> hfs -> hfs * bool) : Prop :=
  forall c fs p, ~ beneath dir p -> look p (fst (program c fs)) = look p fs.
(** The two file systems show the same. *)
Definition same_fs (a b : hfs) : Prop := forall p, look p a = look p b.
Definition same_outside (dir : hpath) (a b : hfs) : Prop := forall p, ~ beneath dir p -> look p a = look p b.

(** No two files have the same name. *)
Definition distinct_refs (l : list vref) : Prop := NoDup (map (fun r => clean_comps (ref_full r)) l).
(** No file is where another needs a directory. *)
Definition no_obstacle (l : list vref) : Prop :=
  forall r r' s, In r l -> In r' l -> clean_comps (ref_full r') = clean_comps (ref_full r) ++ s -> s = [].
(** The directory has the files [l], with content and time, and the directories that they need, and
    nothing else. *)
Definition holds_exactly (dir : hpath) (l : list vref) (fs : hfs) : Prop :=
  forall q n, q <> [] ->
  (look (dir ++ q) fs = Some n <->
   (exists r text, In r l /\ clean_comps (ref_full r) = q /\ ref_content r = Bytes text true /\ n = NFile 420 (ref_mtime r) text) \/
   (n = NDir /\ exists r s, In r l /\ s <> [] /\ clean_comps (ref_full r) = q ++ s)).
(** [r] is what is at [dir ++ q]. *)
Definition ref_for (dir q : hpath) (fs : hfs) (r : vref) : Prop :=
  exists mode size mtime text, r = MemRef (mkMem (join $"/" q) mode size mtime None (Bytes text true)) /\
  (look (dir ++ q) fs = Some (NFile mode mtime text) /\ size = Z.of_nat (length text) \/
   look (dir ++ q) fs = Some (NOther mode size mtime (Some text))).
(** [outs] has each file of [dir] whose name ends in ".pyc" once, and nothing else. *)
Definition collects (dir : hpath) (fs : hfs) (outs : list vref) : Prop :=
  exists qs, NoDup qs /\ Forall2 (fun q r => ref_for dir q fs r) qs outs /\
  forall q, In q qs <-> has_suffix $".pyc" (join $"/" q) = true /\ exists n, look (dir ++ q) fs = Some n /\ n <> NDir.
(** Paths on the host have ordinary names. *)
Definition plain_fs (dir : hpath) (fs : hfs) : Prop := forall q n, look (dir ++ q) fs = Some n -> plain_path q.

(** What the child process finds in its environment *)
Definition only_once (env : list (str * str)) : Prop := NoDup (map fst env).

(** *** examples *)
Definition ex_py (name text : str) : vref := mem_reg name 420 (Some 12000000000%Z) text.
(** A host with a file in a home directory *)
Definition ex_host : hfs := [([$"tmp"], NDir); ([$"home"], NDir); ([$"home"; $"u"], NDir); ([$"home"; $"u"; $"setup.py"], NFile 420 None $"mine")].
(** A compiler that writes one file, with an 8 in front of the text of foo/a.py *)
Definition ex_program (dir : hpath) (_ : command) (fs : hfs) : hfs * bool :=
  match look (dir ++ [$"usr"; $"lib"; $"foo"; $"a.py"]) fs with
  | Some (NFile _ t text) => (put (dir ++ [$"usr"; $"lib"; $"foo"; $"a.pyc"]) (NFile 420 t ($"8" ++ text)) fs, true)
  | _ => (fs, true)
  end.
Definition ex_temp : hpath := [$"tmp"; $"c.1"].
Definition ex_run (faults : nat -> option nat) (t : option Z) (l : list vref) : act (list vref) :=
  compile faults (ex_program ex_temp) (fun l => l) false $"/tmp/c.1" $"/bin/python3" [$"-m"; $"compileall"] [] t [$"usr/lib"] l.
(** A wheel with a name that leads to the home directory from the directory for temporary files *)
Definition ex_slip : list zfile := ex_wheel [($"../../../../home/u/setup.py", $"evil")].
