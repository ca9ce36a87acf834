(** What writing and comparing layers should mean. *)
From Coq Require Import String Ascii List Bool ZArith Sorted Permutation.
From Verif.Model Require Import GoStr GoPath Tar Layer.
Import ListNotations.
Open Scope Z_scope.

(** Paths in order: component by component in byte order, a path before what
    is below it. *)
Fixpoint parts_before (p q : list str) : Prop :=
  match p, q with
  | _, [] => False
  | [], _ :: _ => True
  | x :: p', y :: q' => str_compare x y = Lt \/ (x = y /\ parts_before p' q')
  end.
Definition name_parts_before (a b : str) : Prop := parts_before (split_on slash a) (split_on slash b).
(** A path in the form path.Clean gives. *)
Definition clean_path (name : str) : Prop := clean name = name.
(** [n] is somewhere below the directory [d]. *)
Definition below (d n : str) : Prop :=
  exists x, n = d ++ $"/" ++ x \/ (d = $"/" /\ n = $"/" ++ x /\ x <> []).
(** [a] comes somewhere before [b]. *)
Definition precedes {A} (a b : A) (l : list A) : Prop := exists l1 l2 l3, l = l1 ++ a :: l2 ++ b :: l3.

(** Times.  The zero time comes first. *)
Definition time_le (a b : option Z) : Prop :=
  match a, b with
  | None, _ => True
  | Some _, None => False
  | Some x, Some y => x <= y
  end.
Definition whole_second (t : option Z) : Prop := match t with Some x => x mod 1000000000 = 0 | None => True end.

(** Everything but the times; everything but the times and the name. *)
Definition same_but_name_and_times (a b : header) : Prop :=
  th_type a = th_type b /\ th_link a = th_link b /\ th_size a = th_size b /\ th_mode a = th_mode b /\
  th_uid a = th_uid b /\ th_gid a = th_gid b /\ th_uname a = th_uname b /\ th_gname a = th_gname b /\
  th_devmajor a = th_devmajor b /\ th_devminor a = th_devminor b /\ th_xattrs a = th_xattrs b /\ th_format a = th_format b.
Definition same_but_times (a b : header) : Prop := th_name a = th_name b /\ same_but_name_and_times a b.
(** The entry for a file reference: named by it, described by it, with its content. *)
Definition entry_for (r : fileref) (e : entry) : Prop :=
  exists h, fr_header r = Some h /\ th_name (fst e) = fr_name r /\ same_but_name_and_times h (fst e) /\
  (if byte_eqb (th_type h) TypeReg then fr_content r = Bytes (snd e) true /\ th_size h = Z.of_nat (length (snd e))
   else snd e = []).

(** The bytes of a reader. *)
Definition bytes_of (r : reader) : str := concat (rd_chunks r) ++ rd_last r.
(** The same entries in the same order, up to the times [eqt] ignores. *)
Definition same_items (eqt : header -> header -> Prop) (a b : list (header * reader)) : Prop :=
  Forall2 (fun x y => same_but_times (fst x) (fst y) /\ eqt (fst x) (fst y) /\ bytes_of (snd x) = bytes_of (snd y)) a b.
Definition same_change_time (a b : header) : Prop := th_ctime a = th_ctime b.
(** A stream without errors. *)
Definition readable (s : source) : Prop :=
  s_open s = None /\ s_end s = None /\ s_close s = None /\ Forall (fun x => rd_err (snd x) = None) (s_items s).
Definition longest (s : source) : nat := fold_right (fun x n => Nat.max (length (bytes_of (snd x))) n) O (s_items s).
