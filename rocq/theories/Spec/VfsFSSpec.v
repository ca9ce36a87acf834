(** What reading from an open file may return. *)
From Coq Require Import String Ascii List Bool ZArith Sorted.
From Verif.Model Require Import GoStr GoPath Tar Squash VfsFS.
From Verif.Spec Require Import PathSpec SquashSpec.
Import ListNotations.

(** The results of calls on an open file of which [rest] has not been read yet. *)
Fixpoint reads_file (rest : str) (closed : bool) (log : list (nat * call * result)) : Prop :=
  match log with
  | [] => True
  | (_, CRead size, r) :: log' =>
      if closed then r = RErr EClosed /\ reads_file rest closed log'
      else match rest with
           | [] => r = RErr EEOF /\ reads_file rest closed log'
           | _ => r = RData (firstn size rest) /\ reads_file (skipn size rest) closed log'
           end
  | (_, CClose, r) :: log' => r = (if closed then RErr EClosed else ROk) /\ reads_file rest true log'
  | (_, CReadDir _, r) :: log' => r = RErr ENotDir /\ reads_file rest closed log'
  end.
(** The results of calls on an open directory of which [rest] has not been listed yet. *)
Fixpoint reads_dir (rest : list dirent) (closed : bool) (log : list (nat * call * result)) : Prop :=
  match log with
  | [] => True
  | (_, CReadDir n, r) :: log' =>
      if closed then r = RErr EClosed /\ reads_dir rest closed log'
      else if (0 <? n)%Z then
        match rest with
        | [] => r = RErr EEOF /\ reads_dir rest closed log'
        | _ => r = REntries (firstn (Z.to_nat n) rest) /\ reads_dir (skipn (Z.to_nat n) rest) closed log'
        end
      else r = REntries rest /\ reads_dir [] closed log'
  | (_, CClose, r) :: log' => r = (if closed then RErr EClosed else ROk) /\ reads_dir rest true log'
  | (_, CRead _, r) :: log' => r = RErr EIsDir /\ reads_dir rest closed log'
  end.

(** The bytes, and the entries, returned by a series of calls. *)
Definition bytes_read (log : list (nat * call * result)) : str :=
  concat (map (fun x => match snd x with RData chunk => chunk | _ => [] end) log).
Definition entries_read (log : list (nat * call * result)) : list dirent :=
  concat (map (fun x => match snd x with REntries l => l | _ => [] end) log).
Definition calls_of (i : nat) (log : list (nat * call * result)) : list call :=
  map (fun x => snd (fst x)) (filter (fun x => Nat.eqb (fst (fst x)) i) log).
Definition closes (log : list (nat * call * result)) : Prop := exists x, In x log /\ snd (fst x) = CClose.

(** Following links to the end.  [ends fs p q]: what the path [p] leads to,
    itself not a link, is at [q]. *)
Inductive ends (fs : fsys) : path -> path -> Prop :=
| ends_dir p m : fs p = Some (FDir m) -> ends fs p p
| ends_file p h c : fs p = Some (FFile h c) -> th_type h <> TypeSymlink -> ends fs p p
| ends_link p h c q r : fs p = Some (FFile h c) -> th_type h = TypeSymlink ->
    walks fs (if is_abs (th_link h) then [] else removelast p) (clean_comps (th_link h)) q ->
    ends fs q r -> ends fs p r.
(** The path as a name for Open. *)
Definition open_name (p : path) : str := path_text false p.
(** What the listing of a directory tells about a node: a missing header stands
    for a directory that no layer describes. *)
Definition shows (n : fnode) (h : option header) : Prop :=
  match n, h with
  | FFile m _, Some h => anon h = m
  | FDir m, Some h => th_type h = TypeDir /\ (m = None \/ m = Some (anon h))
  | FDir m, None => m = None
  | FFile _ _, None => False
  end.
(** The sorted listing of the directory [d]. *)
Definition listing (fs : fsys) (d : path) (l : list dirent) : Prop :=
  StronglySorted (fun a b => str_compare (fst a) (fst b) = Lt) l /\
  (forall x h, In (x, h) l -> exists n, fs (d ++ [x]) = Some n /\ shows n h) /\
  (forall x n, fs (d ++ [x]) = Some n -> exists h, In (x, h) l).
(** What Stat on the file opened at [q] tells about the node there: its
    description under the last name of [q].  No layer describes a directory
    that exists only because it has contents: then Stat fails. *)
Definition stat_tells (n : option fnode) (q : path) (r : stat_result) : Prop :=
  match r with
  | StatOk h => (exists nd, n = Some nd /\ shows nd (Some h)) /\ (q <> [] -> fi_name h = last q [])
  | StatErr x => n = Some (FDir None) /\ x = EMissing
  | StatPanic => False
  end.
