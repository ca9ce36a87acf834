(** What a layer made from a directory should contain. *)
From Coq Require Import String Ascii List Bool ZArith Sorted.
From Verif.Model Require Import GoStr GoPath Tar Layer Dir.
From Verif.Spec Require Import PathSpec LayerSpec.
Import ListNotations.

(** The file at a path below a directory. *)
Fixpoint file_at (d : dnode) (p : list str) : option dnode :=
  match p with
  | [] => Some d
  | c :: p' =>
      match d with
      | DDir _ _ ch =>
          (fix look (l : list (str * dnode)) : option dnode :=
             match l with
             | [] => None
             | (k, x) :: l' => if str_eqb k c then file_at x p' else look l'
             end) ch
      | _ => None
      end
  end.
Definition info_of (d : dnode) : option dinfo :=
  match d with DBad => None | DFile i => Some i | DDir i _ _ => Some i end.
Definition info_at (d : dnode) (p : list str) : option dinfo :=
  match file_at d p with Some x => info_of x | None => None end.
(** Names in a directory are distinct and plain, here and below. *)
Inductive disk_names : dnode -> Prop :=
  | names_bad : disk_names DBad
  | names_file i : disk_names (DFile i)
  | names_dir i r ch : NoDup (map fst ch) -> Forall plain_comp (map fst ch) ->
      (forall c d, In (c, d) ch -> disk_names d) -> disk_names (DDir i r ch).
(** All files below a directory, but not itself, in path order. *)
Definition listing (d : dnode) (files : list (list str * dinfo)) : Prop :=
  StronglySorted parts_before (map fst files) /\
  forall p i, In (p, i) files <-> p <> [] /\ info_at d p = Some i.

(** The prefix as components: without one, none; otherwise those of a relative
    path, after cleaning. *)
Definition prefix_path (px : option prefix) (l : list str) : Prop :=
  match px with
  | None => l = []
  | Some px => clean (px_name px) = path_text false l /\ clean_list false l
  end.
Fixpoint nonempty_prefixes {A} (l : list A) : list (list A) :=
  match l with
  | [] => []
  | x :: l' => [x] :: map (cons x) (nonempty_prefixes l')
  end.
(** [t'] is [t], or [c] if [t] is later than that. *)
Definition at_most (c t t' : option Z) : Prop := (time_le t c -> t' = t) /\ (~ time_le t c -> t' = c).
(** The second nearest to a time, the later one of two. *)
Definition nearest_second (t t' : option Z) : Prop :=
  match t, t' with
  | None, None => True
  | Some x, Some y => (y mod 1000000000 = 0 /\ y - 500000000 <= x < y + 500000000)%Z
  | _, _ => False
  end.
(** The times [h'] that are written for those of [h]: later ones than [c] become [c], others stay as they are.
    Unless the header asks for a format, modification times are then rounded to seconds and the other times are left
    out. *)
Definition clamped (c : option Z) (h h' : header) : Prop :=
  (th_format h = 0%Z -> (exists m, at_most c (th_mtime h) m /\ nearest_second m (th_mtime h')) /\
                        th_atime h' = None /\ th_ctime h' = None) /\
  (th_format h <> 0%Z -> at_most c (th_mtime h) (th_mtime h') /\ at_most c (th_atime h) (th_atime h') /\
                         at_most c (th_ctime h) (th_ctime h')).
(** The entry for a directory of the prefix. *)
Definition prefix_entry (px : prefix) (clamp_time : option Z) (p : list str) (e : entry) : Prop :=
  th_name (fst e) = path_text false p /\ th_type (fst e) = TypeDir /\ snd e = [] /\
  th_mode (fst e) = (if (px_mode px =? 0)%Z then 493%Z else px_mode px) /\
  th_uid (fst e) = o_uid (px_owner px) /\ th_uname (fst e) = o_uname (px_owner px) /\
  th_gid (fst e) = o_gid (px_owner px) /\ th_gname (fst e) = o_gname (px_owner px) /\
  nearest_second clamp_time (th_mtime (fst e)) /\
  th_link (fst e) = [] /\ th_size (fst e) = 0%Z /\ th_devmajor (fst e) = 0%Z /\ th_devminor (fst e) = 0%Z /\ th_xattrs (fst e) = [] /\ th_format (fst e) = 0%Z /\
  th_atime (fst e) = None /\ th_ctime (fst e) = None.

Definition same_metadata (a b : header) : Prop :=
  th_size a = th_size b /\ th_mode a = th_mode b /\
  th_uid a = th_uid b /\ th_gid a = th_gid b /\ th_uname a = th_uname b /\ th_gname a = th_gname b /\
  th_devmajor a = th_devmajor b /\ th_devminor a = th_devminor b /\ th_xattrs a = th_xattrs b /\ th_format a = th_format b.
(** The entry [e] for the file [i] at [p], the prefix being [l], if the files
    [before] come first: a hard link to the first of those that is the same file,
    otherwise the file itself. *)
Definition file_entry (l : list str) (before : list (list str * dinfo)) (p : list str) (i : dinfo) (e : entry) : Prop :=
  th_name (fst e) = join $"/" (l ++ p) /\
  exists h, di_header i = Some h /\ same_metadata h (fst e) /\
  ((exists b1 q j b2, before = b1 ++ (q, j) :: b2 /\ di_id j = di_id i /\ (forall x, In x b1 -> di_id (snd x) <> di_id i) /\
      th_type (fst e) = TypeLink /\ th_link (fst e) = join $"/" (l ++ q) /\ snd e = [])
   \/ ((forall x, In x before -> di_id (snd x) <> di_id i) /\
       th_type (fst e) = th_type h /\
       (if byte_eqb (th_type h) TypeSymlink then di_readlink i = Some (th_link (fst e)) else th_link (fst e) = th_link h) /\
       (if byte_eqb (th_type h) TypeReg then di_content i = Bytes (snd e) true /\ th_size h = Z.of_nat (length (snd e))
        else snd e = []))).
Fixpoint file_entries (l : list str) (before files : list (list str * dinfo)) (out : list entry) : Prop :=
  match files, out with
  | [], [] => True
  | (p, i) :: files', e :: out' => file_entry l before p i e /\ file_entries l (before ++ [(p, i)]) files' out'
  | _, _ => False
  end.

(** Nothing fails for this file. *)
Definition fine (i : dinfo) : Prop :=
  exists h, di_header i = Some h /\
  (th_type h = TypeSymlink -> di_readlink i <> None) /\
  (th_type h = TypeReg -> exists s, di_content i = Bytes s true /\ th_size h = Z.of_nat (length s)).
Definition without_errors (d : dnode) : Prop :=
  match d with
  | DBad => False
  | DFile i => fine i
  | DDir i readable _ => fine i /\ readable = true
  end.
